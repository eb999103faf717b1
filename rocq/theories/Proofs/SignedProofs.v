(** From octets accepted as signed objects back to the grammar of
    [SignedSpec.v]. *)
From Coq Require Import Lia ZifyBool ZifyNat Bool.
From Verif.Model Require Import Base Str NetIP CertRes Roa Ber Asn1 GoTime Der Tal Cms Validator ObjDer.
From Verif.Spec Require Import Addr Resources Bits Canon BerSpec CmsSpec IpExtSpec ObjSpec TimeSpec ContentSpec SignedSpec.
From Verif.Proofs Require Import NetIPProofs BerProofs Asn1Proofs DerPrim DerProofs DerBytes ObjEncode ObjSign DerInside CmsProofs ObjInside ObjBytes TimeProofs ContentProofs.
Ltac Zify.zify_post_hook ::= Z.div_mod_to_equations.

(** ** Headers *)
Lemma header_inv : forall l h r, bytes_ok l = true -> parse_header l = Some (h, r) -> h_tag h < 31 ->
  exists lo, l = (64 * h_class h + 32 * Z.b2z (h_cons h) + h_tag h) :: lo ++ r /\ der_len (h_len h) lo /\ 0 <= h_len h.
Proof.
  intros l h r O H T. unfold parse_header in H. destruct l as [|b l]; [discriminate|]. apply bytes_ok_cons in O as [Ob O].
  destruct (b mod 32 =? 31) eqn:E.
  - destruct (base128 5 true 0 l) as [[t r']|]; [|discriminate]. destruct (t <? 31) eqn:L; [discriminate|].
    destruct (parse_length r') as [[n r2]|]; [|discriminate]. apply some_eq in H.
    apply (f_equal fst) in H. cbn [fst] in H. subst h. cbn [h_tag] in T. lia.
  - destruct (parse_length l) as [[n r2]|] eqn:P; [|discriminate]. apply some_eq in H.
    pose proof (f_equal fst H) as H1. pose proof (f_equal snd H) as H2. cbn [fst snd] in H1, H2. subst h r2. cbn [h_class h_cons h_tag h_len].
    destruct (parse_length_inv _ _ _ O P) as (lo & -> & Hd & Hn). exists lo. split; [|split; [exact Hd|lia]]. f_equal.
    destruct (b / 32 mod 2 =? 0) eqn:B; cbn [negb Z.b2z]; lia.
Qed.

(** ** Raw values *)
Lemma raw_field_inv : forall l v r, bytes_ok l = true -> parse_field GRaw p0 l = Some (v, r) ->
  exists x, v = VRaw x /\ l = r_full x ++ r /\ some_value (r_full x) /\ parse_raw l = Some (x, r).
Proof.
  intros l v r O H. destruct (raw_read _ _ _ H) as (x & -> & R). exists x. split; [reflexivity|].
  destruct (raw_any _ _ _ O R) as (tg & E & A & _). split; [exact E|]. split; [|exact R]. exists tg, (r_bytes x). exact A.
Qed.

Lemma opt_raw_maybe : forall k l v r, 0 <= k < 31 -> bytes_ok l = true -> parse_field GRaw (p_opt_tag k) l = Some (v, r) ->
  exists x, v = VRaw x /\ l = r_full x ++ r /\ maybe k (r_bytes x) (r_full x).
Proof.
  intros k l v r K O H. destruct (opt_raw_inv k l v r K O H) as [[-> ->]|(x & -> & R & C & T)].
  - exists raw0. split; [reflexivity|]. split; [reflexivity|constructor].
  - exists x. split; [reflexivity|]. destruct (parse_raw_inv _ _ _ O R) as (tg & lo & Ed & Ef & Hl & Hc & Ht & K1 & K2 & K3 & K4).
    split; [rewrite Ef, Ed; now rewrite <- !app_assoc|].
    apply (maybe_some k tg); [| congruence|].
    + exists lo. split; [exact Hl|]. split; [exact Ef|]. split; [exact Ht|]. intros X. now apply K3.
    + destruct (Z.eq_dec (hd 0 tg mod 32) 31) as [X|X]; [apply K4 in X; lia|]. apply K3 in X. lia.
Qed.

(** ** Slices with other identifiers *)
Lemma many_inv : forall {A} t' (f : govalue -> option A) (P : bytes -> A -> Prop),
  (forall l v a r, bytes_ok l = true -> parse_field t' p0 l = Some (v, r) -> f v = Some a -> exists e, l = e ++ r /\ P e a) ->
  forall c ws vs, bytes_ok c = true -> many (parse_field t' p0) (length c) c = Some ws -> map_opt f ws = Some vs ->
  exists es, c = concat es /\ Forall2 P es vs.
Proof.
  intros A t' f P HP c ws vs O M H. pose proof (map_opt_forall2 _ _ _ H) as F.
  destruct (many_split (parse_field t' p0) (fun e v => exists r, bytes_ok (e ++ r) = true /\ parse_field t' p0 (e ++ r) = Some (v, r)))
    with (k := length c) (l := c) (vs := ws) as (es & E & F2); [|exact O|exact M|].
  { intros l a r Ol Hl. destruct (parse_good t' p0 l a r Hl) as (_ & (q & ->) & _). exists q. split; [reflexivity|]. exists r. auto. }
  exists es. split; [exact E|]. refine (forall2_imp _ _ _ _ _ (forall2_compose _ _ _ _ _ F2 F)).
  intros e' a (v & (r & Oe & Pe) & Fv). destruct (HP _ _ _ _ Oe Pe Fv) as (e2 & X & Q).
  apply app_inv_tail in X. now subst e2.
Qed.

Lemma set_inv : forall {A} t' (f : govalue -> option A) (P : bytes -> A -> Prop),
  (forall l v a r, bytes_ok l = true -> parse_field t' p0 l = Some (v, r) -> f v = Some a -> exists e, l = e ++ r /\ P e a) ->
  forall l v r vs, bytes_ok l = true -> parse_field (GSlice t') p_as_set l = Some (v, r) -> slice_of f v = Some vs ->
  exists e es, l = e ++ r /\ coded 49 (concat es) e /\ Forall2 P es vs.
Proof.
  intros A t' f P HP l v r vs O H S.
  destruct (field_inv (GSlice t') p_as_set l v r eq_refl eq_refl H) as (x & h & s & Eh & R & M & D & C1 & C2 & C3).
  unfold matches, wire_tag in M. cbn [universal p_as_set p_tag p_explicit p_set negb andb orb] in M.
  destruct (raw_coded _ _ _ O R ltac:(lia)) as (El & C & _).
  assert (Oc : bytes_ok (r_bytes x) = true) by (rewrite El in O; apply bytes_ok_app in O as [O _]; exact (coded_ok _ _ _ C O)).
  cbn [decode_inner] in D. destruct (many (parse_field t' p0) (length (r_bytes x)) (r_bytes x)) as [ws|] eqn:MM; [|discriminate].
  apply some_eq in D. subst v. cbn [slice_of] in S.
  destruct (many_inv t' f P HP _ _ _ Oc MM S) as (es & E & F). exists (r_full x), es. split; [exact El|]. split; [|exact F].
  rewrite E in C. replace 49 with (64 * r_class x + 32 * Z.b2z (r_cons x) + r_tag x); [exact C|].
  destruct (h_cons h) eqn:Hc; [|cbn in M; lia]. rewrite <- C2. cbn [Z.b2z]. lia.
Qed.

Lemma opt_set_inv : forall {A} t' (f : govalue -> option A) (P : bytes -> A -> Prop),
  (forall l v a r, bytes_ok l = true -> parse_field t' p0 l = Some (v, r) -> f v = Some a -> exists e, l = e ++ r /\ P e a) ->
  forall l v r vs, bytes_ok l = true -> parse_field (GSlice t') (p_opt_set 0) l = Some (v, r) -> slice_of f v = Some vs ->
  exists e es, l = e ++ r /\ (coded 160 (concat es) e \/ e = [] /\ es = []) /\ Forall2 P es vs.
Proof.
  intros A t' f P HP l v r vs O H S. rewrite field_raw in H by reflexivity.
  change (default_value (p_opt_set 0) (GSlice t')) with (Some (VSlice [])) in H. cbv iota in H.
  assert (Dflt : (v = VSlice [] /\ r = l) -> exists e es, l = e ++ r /\ (coded 160 (concat es) e \/ e = [] /\ es = []) /\ Forall2 P es vs).
  { intros [-> ->]. injection S as <-. exists [], []. split; [reflexivity|]. split; [right; auto|constructor]. }
  destruct l as [|b l']; [apply Dflt; split; congruence|]. set (l := b :: l') in *. clearbody l.
  destruct (parse_header l) as [[h s]|] eqn:Eh; [|discriminate].
  destruct (matches (p_opt_set 0) (GSlice t') h) eqn:M; [|apply Dflt; split; congruence].
  destruct (parse_raw l) as [[x rest]|] eqn:R; [|discriminate].
  destruct (header_raw _ _ _ _ _ Eh R) as (C1 & C2 & C3).
  unfold matches in M. cbn [universal p_opt_set p_tag p_explicit p_set negb andb orb] in M.
  destruct (raw_coded _ _ _ O R ltac:(lia)) as (El & C & _).
  assert (Oc : bytes_ok (r_bytes x) = true) by (rewrite El in O; apply bytes_ok_app in O as [O _]; exact (coded_ok _ _ _ C O)).
  cbn [decode_inner] in H. destruct (many (parse_field t' p0) (length (r_bytes x)) (r_bytes x)) as [ws|] eqn:MM; [|discriminate].
  cbn [opt_map] in H. apply some_eq in H. assert (VSlice ws = v) by congruence. assert (rest = r) by congruence. subst v rest.
  cbn [slice_of] in S. destruct (many_inv t' f P HP _ _ _ Oc MM S) as (es & E & F). exists (r_full x), es.
  split; [exact El|]. split; [|exact F]. left. rewrite E in C.
  replace 160 with (64 * r_class x + 32 * Z.b2z (r_cons x) + r_tag x); [exact C|].
  destruct (h_cons h) eqn:Hc; [|cbn in M; lia]. rewrite <- C2. cbn [Z.b2z]. lia.
Qed.

Definition raw_good (x : raw) : Prop := exists tg, any_value tg (r_bytes x) (r_full x).
Lemma raw_element : forall l v a r, bytes_ok l = true -> parse_field GRaw p0 l = Some (v, r) -> raw_of v = Some a ->
  exists e, l = e ++ r /\ (e = r_full a /\ raw_good a).
Proof.
  intros l v a r O H F. destruct (raw_field_inv _ _ _ O H) as (x & -> & E & V & R). cbn [raw_of] in F. apply some_eq in F. subst a.
  exists (r_full x). split; [exact E|]. split; [reflexivity|]. destruct (raw_any _ _ _ O R) as (tg & _ & A & _). now exists tg.
Qed.
Lemma raws_values : forall es vs, Forall2 (fun e a => e = r_full a /\ raw_good a) es vs ->
  es = map r_full vs /\ Forall some_value es /\ Forall raw_good vs.
Proof.
  intros es vs F. induction F as [|e a es vs [-> V] F (-> & IH & IG)]; [repeat split; constructor|]. split; [reflexivity|].
  split; constructor; auto. destruct V as (tg & A). now exists tg, (r_bytes a).
Qed.

(** ** Attributes, signers *)
Definition attr_pair (a : attribute) : list Z * list bytes := (at_type a, map r_full (at_values a)).
Definition signer_triple (s : signer_info) : list (list Z * list bytes) * bytes * bytes :=
  (map attr_pair (sg_attrs s), r_full (sg_alg s), sg_sig s).

Definition attrs_good (s : signer_info) : Prop := Forall (fun a => Forall raw_good (at_values a)) (sg_attrs s).

Lemma attr_inv : forall l v a r, bytes_ok l = true -> parse_field t_attr p0 l = Some (v, r) -> attr_of v = Some a ->
  exists e, l = e ++ r /\ (attribute_octets e (attr_pair a) /\ Forall raw_good (at_values a)).
Proof.
  intros l v a r O H Fv. unfold t_attr in H.
  destruct (struct_inv _ _ _ _ O H) as (e & c & vs & -> & -> & C & Lc & Oc & F). exists e. split; [reflexivity|].
  apply fields_cons in F. destruct F as (v1 & c1 & ws & P1 & F & ->).
  destruct (oid_inv _ _ _ Oc P1) as (e1 & k1 & o & -> & -> & C1 & I1). apply bytes_ok_app in Oc as [_ Oc].
  apply fields_cons in F. destruct F as (v2 & c2 & ws2 & P2 & F & ->). cbn [parse_fields] in F. apply some_eq in F. subst ws2.
  cbn [attr_of] in Fv. destruct (slice_of raw_of v2) as [rs|] eqn:S; [|discriminate]. cbn [opt_map] in Fv. apply some_eq in Fv. subst a.
  destruct (set_inv GRaw raw_of _ raw_element _ _ _ _ Oc P2 S) as (e2 & es & -> & C2 & F2).
  apply raws_values in F2. destruct F2 as (-> & F2 & G2). split; [|exact G2].
  exact (attr_one e e1 e2 c2 k1 o (map r_full rs) C C1 I1 C2 F2).
Qed.

Lemma signer_inv : forall l v a r, bytes_ok l = true -> parse_field t_signer p0 l = Some (v, r) -> signer_of v = Some a ->
  exists e, l = e ++ r /\ (signer_octets e (signer_triple a) /\ attrs_good a).
Proof.
  intros l v a r O H Fv. unfold t_signer in H.
  destruct (struct_inv _ _ _ _ O H) as (e & c & vs & -> & -> & C & Lc & Oc & F). exists e. split; [reflexivity|].
  apply fields_cons in F. destruct F as (v1 & c1 & w1 & P1 & F & ->).
  destruct (int_inv _ _ _ Oc P1) as (e1 & k1 & n & -> & -> & C1 & I1). apply bytes_ok_app in Oc as [_ Oc].
  apply fields_cons in F. destruct F as (v2 & c2 & w2 & P2 & F & ->).
  destruct (raw_field_inv _ _ _ Oc P2) as (x2 & -> & E2 & V2 & _). subst c1. apply bytes_ok_app in Oc as [_ Oc].
  apply fields_cons in F. destruct F as (v3 & c3 & w3 & P3 & F & ->).
  pose proof Fv as Fv'. cbn [signer_of] in Fv'.
  apply fields_cons in F. destruct F as (v4 & c4 & w4 & P4 & F & ->).
  apply fields_cons in F. destruct F as (v5 & c5 & w5 & P5 & F & ->).
  apply fields_cons in F. destruct F as (v6 & c6 & w6 & P6 & F & ->).
  apply fields_cons in F. destruct F as (v7 & c7 & w7 & P7 & F & ->). cbn [parse_fields] in F. apply some_eq in F. subst w7.
  clear Fv'. cbn [signer_of] in Fv. destruct v5 as [x5| | | | | | | | | |]; try discriminate.
  destruct v6 as [| | | | | |sg| | | |] eqn:E6; try discriminate. destruct v7 as [x7| | | | | | | | | |]; try discriminate.
  destruct (slice_of raw_of v3) as [ds|] eqn:S3; [|discriminate]. destruct (slice_of attr_of v4) as [ats|] eqn:S4; [|discriminate].
  apply some_eq in Fv. subst a.
  destruct (slice_of_inv GRaw raw_of _ raw_element _ _ _ _ Oc P3 S3) as (e3 & es3 & -> & C3 & F3). apply bytes_ok_app in Oc as [_ Oc].
  apply raws_values in F3. destruct F3 as (-> & F3 & _).
  destruct (opt_set_inv t_attr attr_of (fun e a => attribute_octets e (attr_pair a) /\ Forall raw_good (at_values a)) attr_inv _ _ _ _ Oc P4 S4) as (e4 & es4 & -> & C4 & F4).
  apply bytes_ok_app in Oc as [_ Oc].
  destruct (raw_field_inv _ _ _ Oc P5) as (y5 & X5 & E5 & V5 & _). injection X5 as <-. subst c4. apply bytes_ok_app in Oc as [_ Oc].
  destruct (octets_inv _ _ _ Oc P6) as (e6 & k6 & -> & X6 & C6). injection X6 as <-.
  split; [|unfold attrs_good; cbn [sg_attrs]; clear - F4; induction F4 as [|? ? ? ? [_ ?]]; constructor; auto].
  unfold signer_triple. cbn [sg_attrs sg_alg sg_sig].
  apply (signer_one e e1 (r_full x2) e3 e4 (r_full x5) e6 c6 k1 n (map r_full ds) es4 (map attr_pair ats) sg); auto.
  clear - F4. induction F4 as [|? ? ? ? [? _]]; constructor; auto.
Qed.

(** ** The content *)
Lemma joined_inv : forall d out b, bytes_ok d = true -> grouped d = Some (out, b) -> joined d out.
Proof.
  intros d out b O H. unfold grouped in H. destruct (bad_format_group d) as [[[full bad] ok]|] eqn:E; [|discriminate].
  destruct ok; [|discriminate]. apply some_eq in H. assert (full = out) by congruence. assert (bad = b) by congruence. subst full bad.
  destruct (group_inv _ _ _ O E) as [(cs & bs & F & N & -> & -> & _)|(_ & rest & r & Ed & R & T)].
  - apply joined_fragments; [exact N|]. clear - F. induction F as [|c b cs bs [D _] F IH]; constructor; [|exact IH].
    inversion D; subst. eexists. split; [eassumption|reflexivity].
  - destruct (raw_any _ _ _ O R) as (tg & Ed2 & A & _ & T2). rewrite Ed2 in Ed. apply app_inv_tail in Ed. subst out. rewrite Ed2.
    apply (joined_value tg (r_bytes r)); [exact A|]. apply T2; [lia|exact T].
Qed.

Lemma wrapped_raw_inv : forall l x r, bytes_ok l = true -> parse_field GRaw (p_opt_wrapped 0) l = Some (VRaw x, r) -> r_bytes x <> [] ->
  l = r_full x ++ r /\ coded 160 (r_bytes x) (r_full x).
Proof.
  intros l x r O H N. rewrite parse_field_eq in H. change (default_value (p_opt_wrapped 0) GRaw) with (Some (VRaw raw0)) in H.
  cbv zeta iota in H.
  assert (Dflt : Some (VRaw raw0, l) <> Some (VRaw x, r)).
  { intros E. apply some_eq in E. apply (f_equal fst) in E. cbn [fst] in E. injection E as <-. now apply N. }
  destruct l as [|b l']; [congruence|]. set (l := b :: l') in *. clearbody l.
  destruct (parse_header l) as [[h r0]|] eqn:Eh; [|discriminate].
  unfold open_explicit in H. cbn [p_opt_wrapped p_explicit p_tag] in H. destruct r0 as [|y r0']; [discriminate|]. set (r0 := y :: r0') in *. clearbody r0.
  destruct ((h_class h =? 2) && (h_tag h =? 0) && ((h_len h =? 0) || h_cons h)) eqn:K; [|congruence].
  change (matches (p_opt_wrapped 0) GRaw h) with true in H. cbn [negb] in H.
  destruct (Z.of_nat (length r0) <? h_len h) eqn:L; [discriminate|]. cbn [decode_inner opt_map] in H. apply some_eq in H.
  destruct (header_inv _ _ _ O Eh ltac:(lia)) as (lo & El & Hd & Hp).
  pose proof (f_equal snd H) as Hr. cbn [snd] in Hr.
  pose proof (f_equal (fun v => match fst v with VRaw x => x | _ => raw0 end) H) as Hx. cbn [fst] in Hx. clear H.
  subst x. cbn [r_bytes r_full] in *.
  set (n := Z.to_nat (h_len h)) in *.
  assert (Hc : h_cons h = true).
  { destruct (h_cons h) eqn:Hc; [reflexivity|]. exfalso. apply N. assert (h_len h = 0) by lia. subst n. rewrite H. reflexivity. }
  assert (Lo : Z.of_nat n = h_len h). { subst n. lia. }
  assert (Full : firstn (length l - length r) l = (160 :: lo) ++ firstn n r0).
  { rewrite El. rewrite Hc. replace (64 * h_class h + 32 * Z.b2z true + h_tag h) with 160 by (cbn [Z.b2z]; lia).
    change (160 :: lo ++ r0) with ((160 :: lo) ++ r0). rewrite <- Hr.
    rewrite app_length, skipn_length.
    set (q := length (160 :: lo)); replace (q + length r0 - (length r0 - n))%nat with (q + n)%nat by lia; subst q.
    rewrite firstn_app. rewrite firstn_all2 by lia. f_equal. f_equal. lia. }
  rewrite <- Hr in Full. rewrite Full. split.
  - rewrite El, Hc. replace (64 * h_class h + 32 * Z.b2z true + h_tag h) with 160 by (cbn [Z.b2z]; lia).
    cbn [app]. rewrite <- app_assoc. f_equal. f_equal. rewrite <- Hr. now rewrite firstn_skipn.
  - exists lo. split; [|reflexivity]. rewrite firstn_length, Nat.min_l by lia. now rewrite Lo.
Qed.

Lemma encap_inv : forall d x rest o content b, bytes_ok d = true -> parse_raw d = Some (x, rest) ->
  (exists e, read_as t_encap encap_of (r_full x) = Some e /\ en_oid e = o /\
     bindopt (bindopt (read_as GRaw raw_of (r_bytes (en_content e))) (fun r => Some (r_bytes r))) grouped = Some (content, b)) ->
  encapsulated (r_full x) o content.
Proof.
  intros d x rest o content b O R (e & E & Eo & G). destruct (raw_any _ _ _ O R) as (tg & Ed & _).
  assert (Of : bytes_ok (r_full x) = true) by (rewrite Ed in O; now apply bytes_ok_app in O).
  unfold read_as, unmarshal, t_encap in E. destruct (parse_field _ p0 (r_full x)) as [[v s]|] eqn:P; [|discriminate].
  destruct (struct_inv _ _ _ _ Of P) as (e0 & c & vs & X & -> & C & Lc & Oc & F).
  destruct (reread _ _ _ _ _ _ _ O R X C ltac:(lia) Lc) as [-> _]. rewrite app_nil_r in X. rewrite X.
  apply fields_cons in F. destruct F as (v1 & c1 & w1 & P1 & F & ->).
  destruct (oid_inv _ _ _ Oc P1) as (e1 & k1 & o1 & -> & -> & C1 & I1). apply bytes_ok_app in Oc as [_ Oc].
  apply fields_cons in F. destruct F as (v2 & c2 & w2 & P2 & F & ->). cbn [parse_fields] in F. apply some_eq in F. subst w2.
  cbn [encap_of] in E. destruct v2 as [y| | | | | | | | | |]; try discriminate. apply some_eq in E. subst e. cbn [en_oid en_content] in *. subst o1.
  destruct (read_as GRaw raw_of (r_bytes y)) as [z|] eqn:Ez; [|discriminate]. cbn [bindopt] in G.
  assert (N : r_bytes y <> []). { intros N. rewrite N in Ez. discriminate. }
  destruct (wrapped_raw_inv _ _ _ Oc P2 N) as (-> & C2). apply bytes_ok_app in Oc as [Oc _]. pose proof (coded_ok _ _ _ C2 Oc) as Oy.
  unfold read_as, unmarshal in Ez. destruct (parse_field GRaw p0 (r_bytes y)) as [[w s]|] eqn:Pz; [|discriminate].
  destruct (raw_read _ _ _ Pz) as (z' & -> & Rz). cbn [raw_of] in Ez. apply some_eq in Ez. subst z'.
  destruct (raw_any _ _ _ Oy Rz) as (tg2 & Ey & A & _). rewrite Ey in C2.
  assert (Oz : bytes_ok (r_bytes z) = true).
  { destruct (parse_raw_inv _ _ _ Oy Rz) as (tg' & lo & Ed' & _). rewrite Ed' in Oy. apply bytes_ok_app in Oy as [_ Oy].
    apply bytes_ok_app in Oy as [_ Oy]. now apply bytes_ok_app in Oy as [Oy _]. }
  apply (encap_one e0 e1 (r_full y) c2 k1 o tg2 (r_bytes z) (r_full z) s content C C1 I1 C2 A). exact (joined_inv _ _ _ Oz G).
Qed.

(** ** The whole object *)
Lemma wrapped_struct : forall fs l v r, bytes_ok l = true -> parse_field (GStruct false fs) (p_wrapped 0) l = Some (v, r) ->
  exists lw n l1, l = 160 :: lw ++ l1 /\ der_len n lw /\ 0 < n /\ parse_field (GStruct false fs) p0 l1 = Some (v, r).
Proof.
  intros fs l v r O H. rewrite parse_field_eq in H. change (default_value (p_wrapped 0) (GStruct false fs)) with (@None govalue) in H.
  cbv zeta iota in H. destruct l as [|b l']; [discriminate|]. set (l := b :: l') in *. clearbody l.
  destruct (parse_header l) as [[h r0]|] eqn:Eh; [|discriminate].
  unfold open_explicit in H. cbn [p_wrapped p_explicit p_tag] in H. destruct r0 as [|y r0']; [discriminate|]. set (r0 := y :: r0') in *.
  destruct ((h_class h =? 2) && (h_tag h =? 0) && ((h_len h =? 0) || h_cons h)) eqn:K; [|discriminate].
  destruct (0 <? h_len h) eqn:L; [|discriminate].
  destruct (header_inv _ _ _ O Eh ltac:(lia)) as (lo & El & Hd & Hp).
  exists lo, (h_len h), r0. split; [rewrite El; f_equal; destruct (h_cons h); cbn [Z.b2z]; lia|]. split; [exact Hd|]. split; [lia|].
  rewrite parse_field_eq. cbv zeta. change (default_value p0 (GStruct false fs)) with (@None govalue). cbv iota. unfold r0 at 1.
  destruct (parse_header r0) as [[h' r']|]; [|discriminate].
  unfold open_explicit. cbn [p0 p_explicit].
  change (matches p0 (GStruct false fs) h') with (matches (p_wrapped 0) (GStruct false fs) h').
  destruct (negb (matches (p_wrapped 0) (GStruct false fs) h')); [discriminate|].
  destruct (Z.of_nat (length r') <? h_len h'); [discriminate|]. exact H.
Qed.

Theorem signed_grammar : forall d c content b, bytes_ok d = true -> decode_cms d = Some c ->
  bindopt (inner_octets c) grouped = Some (content, b) ->
  exists o, content_type d = Some o /\
    signed_object d o content (r_bytes (sd_certs (co_data c))) (map signer_triple (sd_signers (co_data c))) /\
    Forall attrs_good (sd_signers (co_data c)).
Proof.
  intros d c content b O H G. unfold content_type. rewrite H.
  unfold decode_cms, read_as, unmarshal, t_cms in H. destruct (parse_field _ p0 d) as [[v rest]|] eqn:E; [|discriminate].
  destruct (struct_inv _ _ _ _ O E) as (e & k & vs & -> & -> & C & Lc & Oc & F).
  apply fields_cons in F. destruct F as (v1 & c1 & w1 & P1 & F & ->).
  destruct (oid_inv _ _ _ Oc P1) as (e1 & k1 & o1 & -> & -> & C1 & I1). apply bytes_ok_app in Oc as [_ Oc].
  apply fields_cons in F. destruct F as (v2 & c2 & w2 & P2 & F & ->). cbn [parse_fields] in F. apply some_eq in F. subst w2.
  cbn [cms_of] in H. destruct (signed_of v2) as [sd|] eqn:S; [|discriminate]. cbn [opt_map] in H. apply some_eq in H. subst c. cbn [co_data] in *.
  unfold t_signed in P2. destruct (wrapped_struct _ _ _ _ Oc P2) as (lw & n & l1 & -> & Hw & Hn & P3). clear P2.
  apply bytes_ok_cons in Oc as [_ Oc]. apply bytes_ok_app in Oc as [_ Oc].
  destruct (struct_inv _ _ _ _ Oc P3) as (es & k2 & vs & -> & -> & C2 & L2 & Os & F). clear P3.
  apply fields_cons in F. destruct F as (u1 & d1 & w1 & Q1 & F & ->).
  destruct (int_inv _ _ _ Os Q1) as (f1 & j1 & ver & -> & -> & D1 & J1). apply bytes_ok_app in Os as [_ Os].
  apply fields_cons in F. destruct F as (u2 & d2 & w2 & Q2 & F & ->).
  apply fields_cons in F. destruct F as (u3 & d3 & w3 & Q3 & F & ->).
  apply fields_cons in F. destruct F as (u4 & d4 & w4 & Q4 & F & ->).
  apply fields_cons in F. destruct F as (u5 & d5 & w5 & Q5 & F & ->).
  apply fields_cons in F. destruct F as (u6 & d6 & w6 & Q6 & F & ->). cbn [parse_fields] in F. apply some_eq in F. subst w6.
  cbn [signed_of] in S. destruct u3 as [x3| | | | | | | | | |] eqn:U3; try discriminate.
  destruct u4 as [x4| | | | | | | | | |] eqn:U4; try discriminate. destruct u5 as [x5| | | | | | | | | |] eqn:U5; try discriminate.
  destruct (slice_of raw_of u2) as [ds|] eqn:S2; [|discriminate]. destruct (slice_of signer_of u6) as [sis|] eqn:S6; [|discriminate].
  apply some_eq in S. subst sd. cbn [sd_certs sd_signers sd_encap] in *.
  destruct (set_inv GRaw raw_of _ raw_element _ _ _ _ Os Q2 S2) as (f2 & es2 & -> & D2 & F2). apply bytes_ok_app in Os as [_ Os].
  apply raws_values in F2. destruct F2 as (-> & F2 & _).
  destruct (raw_field_inv _ _ _ Os Q3) as (y3 & X3 & E3 & _ & R3). injection X3 as <-.
  unfold inner_octets in G. cbn [co_data sd_encap] in G.
  destruct (read_as t_encap encap_of (r_full x3)) as [en|] eqn:EN; [|discriminate]. cbn [bindopt] in G.
  exists (en_oid en). split.
  { unfold read_as in *. destruct (unmarshal t_encap (r_full x3)) as [[ve ?]|]; [|discriminate]. now rewrite EN. }
  pose proof (encap_inv _ _ _ (en_oid en) content b Os R3 (ex_intro _ en (conj EN (conj eq_refl G)))) as EC.
  rewrite E3 in Os. rewrite E3 in C2. apply bytes_ok_app in Os as [_ Os].
  destruct (opt_raw_maybe 0 _ _ _ ltac:(lia) Os Q4) as (y4 & X4 & E4 & M4). injection X4 as <-. rewrite E4 in Os, C2. apply bytes_ok_app in Os as [_ Os].
  destruct (opt_raw_maybe 1 _ _ _ ltac:(lia) Os Q5) as (y5 & X5 & E5 & M5). injection X5 as <-. rewrite E5 in Os, C2. apply bytes_ok_app in Os as [_ Os].
  destruct (set_inv t_signer signer_of (fun e a => signer_octets e (signer_triple a) /\ attrs_good a) signer_inv _ _ _ _ Os Q6 S6) as (f6 & es6 & -> & D6 & F6).
  split; [|clear - F6; induction F6 as [|? ? ? ? [_ ?]]; constructor; auto].
  apply (signed_one (e ++ rest) e e1 lw n es c2 rest k1 o1 f1 j1 ver f2 (map r_full ds) (r_full x3) (r_full x4) (r_full x5) f6 es6
           (en_oid en) content (r_bytes x4) (map signer_triple sis) d6); eauto.
  clear - F6. induction F6 as [|? ? ? ? [? _]]; constructor; auto.
Qed.
