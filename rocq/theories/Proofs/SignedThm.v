(** Signatures over signed objects, down to octets; what DecodeROA and
    DecodeManifest accept. *)
From Coq Require Import Lia ZifyBool ZifyNat Bool Permutation.
From Verif.Model Require Import Base Str NetIP CertRes Roa Ber Asn1 GoTime Der Tal Cms Validator ObjDer.
From Verif.Spec Require Import Addr Resources Bits Canon BerSpec CmsSpec IpExtSpec ObjSpec TimeSpec ContentSpec SignedSpec.
From Verif.Proofs Require Import NetIPProofs StrProofs BerProofs Asn1Proofs DerPrim DerProofs DerBytes ObjEncode ObjSign ObjRound DerInside CmsProofs ObjInside ObjBytes TimeProofs ContentProofs SignedProofs.
Ltac Zify.zify_post_hook ::= Z.div_mod_to_equations.

(** ** Object identifiers have one encoding *)
Definition base128_value (l : bytes) : Z := fold_left (fun n x => n * 128 + x mod 128) l 0.
Lemma base128_snoc : forall l x, base128_value (l ++ [x]) = base128_value l * 128 + x mod 128.
Proof. intros l x. unfold base128_value. now rewrite fold_left_app. Qed.
Lemma base128_nonneg : forall l, 0 <= base128_value l.
Proof. induction l as [|x l IH] using rev_ind; [cbn; lia|]. rewrite base128_snoc. lia. Qed.
Lemma base128_pos : forall l, l <> [] -> Forall (fun x => 128 <= x < 256) l -> hd 0 l <> 128 -> 0 < base128_value l.
Proof.
  induction l as [|x l IH] using rev_ind; intros N F H; [congruence|]. rewrite base128_snoc.
  apply Forall_app in F as [F Fx]. inversion Fx as [|? ? X]; subst. destruct l as [|y l].
  - cbn [app hd] in H. cbn. lia.
  - specialize (IH ltac:(discriminate) F H). lia.
Qed.
Lemma digits_unique : forall a b, Forall (fun x => 128 <= x < 256) a -> Forall (fun x => 128 <= x < 256) b ->
  (a <> [] -> hd 0 a <> 128) -> (b <> [] -> hd 0 b <> 128) -> base128_value a = base128_value b -> a = b.
Proof.
  induction a as [|x a IH] using rev_ind; intros b Fa Fb Ha Hb E.
  - destruct b as [|y b]; [reflexivity|]. pose proof (base128_pos (y :: b) ltac:(discriminate) Fb (Hb ltac:(discriminate))). change (base128_value []) with 0 in E. lia.
  - destruct b as [|y b] using rev_ind.
    + pose proof (base128_pos (a ++ [x]) ltac:(destruct a; discriminate) Fa (Ha ltac:(destruct a; discriminate))). change (base128_value []) with 0 in E. lia.
    + clear IHb. rewrite !base128_snoc in E. apply Forall_app in Fa as [Fa Fx]. apply Forall_app in Fb as [Fb Fy].
      inversion Fx as [|? ? X]; subst. inversion Fy as [|? ? Y]; subst.
      assert (x = y) by lia. subst y. f_equal. apply IH; auto; [| |lia].
      * intros N. specialize (Ha ltac:(destruct a; discriminate)). destruct a; [congruence|exact Ha].
      * intros N. specialize (Hb ltac:(destruct b; discriminate)). destruct b; [congruence|exact Hb].
Qed.
Lemma subidentifier_unique : forall b b' v, subidentifier b v -> subidentifier b' v -> b = b'.
Proof.
  intros b b' v (m & x & -> & F & X & H & V & _) (m' & y & -> & F' & Y & H' & V' & _).
  fold (base128_value (m ++ [x])) in V. fold (base128_value (m' ++ [y])) in V'. rewrite base128_snoc in V, V'.
  assert (x = y) by lia. subst y. f_equal. apply digits_unique; auto; [| |lia].
  - intros N. destruct m; [congruence|exact H].
  - intros N. destruct m'; [congruence|exact H'].
Qed.
Lemma subidentifiers_unique : forall bs vs, Forall2 subidentifier bs vs -> forall bs', Forall2 subidentifier bs' vs -> bs = bs'.
Proof.
  induction 1 as [|b v bs vs S F IH]; intros bs' F'; inversion F' as [|b' ? bs2 ? S' F2]; subst; [reflexivity|].
  f_equal; [exact (subidentifier_unique _ _ _ S S')|now apply IH].
Qed.
Lemma sub_range : forall b v, subidentifier b v -> 0 <= v < 2 ^ 31.
Proof. intros b v (m & x & -> & _ & _ & _ & -> & L). split; [apply base128_nonneg|exact L]. Qed.
Lemma oid_unique : forall c c' o, oid_coded c o -> oid_coded c' o -> c = c'.
Proof.
  intros c c' o (bs & v & vs & -> & F & D) (bs' & v' & vs' & -> & F' & D').
  inversion F as [|b ? ? ? S ?]; subst. inversion F' as [|b' ? ? ? S' ?]; subst. apply sub_range in S, S'.
  assert (E : v = v' /\ vs = vs').
  { destruct D as [[L ->]|[L ->]], D' as [[L' E]|[L' E]]; injection E; intros; split; auto; lia. }
  destruct E as [<- <-]. f_equal. exact (subidentifiers_unique _ _ F _ F').
Qed.
Lemma oid_coded_fits : forall c o, oid_coded c o -> oid_fits o.
Proof.
  intros c o (bs & v & vs & -> & F & D). inversion F as [|b ? bs' ? S F']; subst. apply sub_range in S.
  assert (A : forallb arc_ok vs = true).
  { clear - F'. induction F' as [|b v bs vs S F IH]; [reflexivity|]. cbn [forallb]. rewrite IH. apply sub_range in S. unfold arc_ok. lia. }
  destruct D as [[L ->]|[L ->]]; (split; [lia|exact A]).
Qed.
Lemma oid_put : forall c o, oid_coded c o -> put_oid o = Some c /\ parse_oid_value c = Some o.
Proof.
  intros c o H. destruct (oid_back o (oid_coded_fits _ _ H)) as (b & P & V).
  pose proof (oid_value_coded b o (put_oid_bytes _ _ P) V) as C. rewrite (oid_unique _ _ _ H C). auto.
Qed.

(** ** Encodings *)
Lemma coded_make : forall id c, Z.of_nat (length c) < 2 ^ 62 -> coded id c (id :: encode_length (Z.of_nat (length c)) ++ c).
Proof. intros id c H. exists (encode_length (Z.of_nat (length c))). split; [|reflexivity]. apply encode_length_der. lia. Qed.
Lemma coded_is : forall id c e, coded id c e -> Z.of_nat (length c) < 2 ^ 62 -> e = id :: encode_length (Z.of_nat (length c)) ++ c.
Proof. intros id c e (l & D & ->) H. now rewrite (der_len_unique (Z.of_nat (length c)) l ltac:(lia) D). Qed.
Lemma coded_longer : forall id c e, coded id c e -> (length c + 2 <= length e)%nat.
Proof. intros id c e (l & [D _] & ->). cbn [length]. rewrite app_length. inversion D; subst; cbn [length]; lia. Qed.
Lemma make_length : forall id c, Z.of_nat (length c) < 2 ^ 62 ->
  (length (id :: encode_length (Z.of_nat (length c)) ++ c) <= length c + 10)%nat.
Proof.
  intros id c H. cbn [length]. rewrite app_length.
  destruct (encode_length_size (Z.of_nat (length c))) as [L _]; [split; [lia|]; change (256 ^ 8) with (2 ^ 64); lia|]. lia.
Qed.
Lemma concat_perm_length : forall (a b : list bytes), Permutation a b -> length (concat a) = length (concat b).
Proof. induction 1; cbn [concat]; rewrite ?app_length in *; lia. Qed.

Lemma tlv48 : forall b, put_tlv 0 true 16 b = 48 :: encode_length (Z.of_nat (length b)) ++ b.
Proof. intros b. now rewrite put_tlv_low by lia. Qed.
Lemma tlv49 : forall b, put_tlv 0 true 17 b = 49 :: encode_length (Z.of_nat (length b)) ++ b.
Proof. intros b. now rewrite put_tlv_low by lia. Qed.
Lemma tlv6 : forall b, put_tlv 0 false 6 b = 6 :: encode_length (Z.of_nat (length b)) ++ b.
Proof. intros b. now rewrite put_tlv_low by lia. Qed.

Lemma attr_remade : forall e a, attribute_octets e (attr_pair a) -> Z.of_nat (length e) < 2 ^ 60 ->
  (exists e1 e2 c vs, coded 48 (e1 ++ e2) (attr_octets (attr_view a)) /\ coded 6 c e1 /\ oid_coded c (at_type a) /\
     coded 49 (concat vs) e2 /\ Permutation (map r_full (at_values a)) vs) /\
  (length (attr_octets (attr_view a)) <= length e + 10)%nat /\ (1 <= length e)%nat.
Proof.
  intros e a H L. unfold attr_pair in H. inversion H as [e' e1 e2 junk c o vs C C1 I1 C2 F X Y]; subst.
  pose proof (coded_longer _ _ _ C) as L0. pose proof (coded_longer _ _ _ C1) as L1. pose proof (coded_longer _ _ _ C2) as L2.
  rewrite !app_length in L0. destruct (oid_put _ _ I1) as [P _].
  unfold attr_octets, attr_view. cbn [a_type a_values]. rewrite P. cbn [odefault]. rewrite map_map. cbn [fst].
  set (vs := sort_bytes (map (fun r => r_full r) (at_values a))).
  assert (Pm : Permutation (map r_full (at_values a)) vs) by apply sort_perm.
  pose proof (concat_perm_length _ _ Pm) as Lv.
  rewrite tlv48, tlv49, tlv6.
  pose proof (coded_is _ _ _ C1 ltac:(lia)) as E1. rewrite <- E1.
  pose proof (coded_is _ _ _ C2 ltac:(lia)) as E2.
  set (f2 := 49 :: encode_length (Z.of_nat (length (concat vs))) ++ concat vs).
  assert (L3 : length f2 = length e2).
  { rewrite E2. unfold f2. cbn [length]. rewrite !app_length, Lv. reflexivity. }
  assert (LL : Z.of_nat (length (e1 ++ f2)) < 2 ^ 62) by (rewrite app_length; lia).
  split; [|split; [|lia]].
  - exists e1, f2, c, vs. split; [now apply coded_make|]. split; [exact C1|]. split; [exact I1|]. split; [|exact Pm].
    apply coded_make. rewrite <- Lv. lia.
  - eapply Nat.le_trans; [exact (make_length 48 (e1 ++ f2) LL)|]. rewrite app_length. lia.
Qed.

Lemma attrs_remade : forall es attrs, Forall2 attribute_octets es (map attr_pair attrs) -> Z.of_nat (length (concat es)) < 2 ^ 50 ->
  Forall2 (fun a e => exists e1 e2 c vs, coded 48 (e1 ++ e2) e /\ coded 6 c e1 /\ oid_coded c (fst a) /\
     coded 49 (concat vs) e2 /\ Permutation (snd a) vs) (map attr_pair attrs) (map attr_octets (map attr_view attrs)) /\
  (length (concat (map attr_octets (map attr_view attrs))) <= 11 * length (concat es))%nat.
Proof.
  intros es attrs. revert es. induction attrs as [|a attrs IH]; intros es F L; inversion F as [|e ? es' ? H F']; subst; [split; [constructor|cbn; lia]|].
  cbn [concat] in *. rewrite app_length in *. destruct (IH es' F' ltac:(lia)) as [G M].
  destruct (attr_remade e a H ltac:(lia)) as (W & M2 & M3). cbn [map concat]. rewrite app_length. split; [constructor; [exact W|exact G]|lia].
Qed.

(** ** Numbers as octets *)
Lemma int_bytes : forall v, 0 <= v -> addr_val (bytes_of_int v) = v /\ hd 1 (bytes_of_int v) <> 0.
Proof.
  intros v H. destruct (Z.eq_dec v 0) as [->|N]; [split; [reflexivity|cbn; lia]|].
  destruct (nat_bytes v ltac:(lia)) as (l & O & Ne & Hd & <-). rewrite bytes_of_int_bval by auto.
  rewrite addr_val_bval. split; [reflexivity|]. destruct l; [congruence|exact Hd].
Qed.

(** ** Signatures *)
  Lemma digest_attrs : forall attrs es h, Forall2 attribute_octets es (map attr_pair attrs) ->
    Forall (fun a => Forall raw_good (at_values a)) attrs ->
    digest_of a_type a_values (map attr_view attrs) h -> digest_attribute (map attr_pair attrs) h.
  Proof.
    intros attrs es h F G (pre & a & post & E & (Ty & f & Va) & No).
    apply map_eq_app in E. destruct E as (pa & ra & -> & Ep & E). destruct ra as [|x pb]; [discriminate|]. cbn [map] in E.
    injection E as Ea Eb. subst a post pre.
    assert (Types : forall y, In y (pa ++ x :: pb) -> exists c, oid_coded c (at_type y)).
    { intros y Hy. clear - F Hy. assert (In (attr_pair y) (map attr_pair (pa ++ x :: pb))) as I by (now apply in_map).
      clear Hy. induction F as [|e q es qs A F IH]; [destruct I|]. destruct I as [->|I]; [|auto].
      inversion A; subst. eauto. }
    assert (Dg : forall y, In y (pa ++ x :: pb) -> a_type (attr_view y) = digest_oid <-> at_type y = digest_type).
    { intros y Hy. destruct (Types y Hy) as (c & C). destruct (oid_put _ _ C) as [P V]. cbn [attr_view a_type]. rewrite P. cbn [odefault].
      split; intros X.
      - subst c. assert (parse_oid_value digest_oid = Some digest_type) by (vm_compute; reflexivity). congruence.
      - rewrite X in P. assert (put_oid digest_type = Some digest_oid) by (vm_compute; reflexivity). congruence. }
    assert (Ix : In x (pa ++ x :: pb)) by (apply in_or_app; right; now left).
    exists (map attr_pair pa). cbn [attr_view a_values] in Va. destruct (at_values x) as [|r [|? ?]] eqn:Ev; try discriminate.
    rewrite Forall_forall in G. pose proof (G x Ix) as Gx. rewrite Ev in Gx. inversion Gx as [|? ? (tg & A) _]; subst.
    cbn [map] in Va. injection Va as Vf Vb. subst f h.
    exists (r_full r), (map attr_pair pb), tg. split; [|split; [exact A|]].
    - rewrite map_app. cbn [map]. f_equal. f_equal. unfold attr_pair. rewrite Ev. apply (Dg x Ix) in Ty. rewrite Ty. reflexivity.
    - intros w Hw. apply in_map_iff in Hw. destruct Hw as (y & Ey & Hy). unfold attr_pair in Ey.
      assert (Et : at_type y = digest_type) by congruence. assert (Ew : map r_full (at_values y) = [w]) by congruence.
      destruct (at_values y) as [|q [|? ?]] eqn:Eq; try discriminate.
      apply (No (attr_view y) (r_bytes q)); [now apply in_map|]. split.
      + apply Dg; [apply in_or_app; right; now right|exact Et].
      + exists (r_full q). cbn [attr_view a_values]. rewrite Eq. reflexivity.
  Qed.

  Lemma signer_size : forall e attrs alg sig, signer_octets e (attrs, alg, sig) ->
    exists es, Forall2 attribute_octets es attrs /\ (length (concat es) <= length e)%nat.
  Proof.
    intros e attrs alg sig H. inversion H as [? ev sid da sa al sg junk cv v ds es ? ? C Cv Iv Vs Cd Fd Ca Fa Va Cg]; subst.
    exists es. split; [exact Fa|]. pose proof (coded_longer _ _ _ C) as L. rewrite !app_length in L.
    destruct Ca as [Ca|[-> ->]]; [|cbn; lia]. pose proof (coded_longer _ _ _ Ca). lia.
  Qed.
  Lemma object_size : forall d o content cert signers, signed_object d o content cert signers ->
    Forall (fun s => exists e, signer_octets e s /\ (length e <= length d)%nat) signers.
  Proof.
    intros d o content cert signers H.
    destruct H as [d e e0 lw n es junk rest c0 oid0 ev cv v da ds en ce cr si ss o content cert signers junk'
                     -> C C0 O0 Hl Hn Cs Cv Iv Cd Fd Ec Mc Mr Ci Fs].
    pose proof (coded_longer _ _ _ C) as L1. pose proof (coded_longer _ _ _ Cs) as L2. pose proof (coded_longer _ _ _ Ci) as L3.
    repeat (rewrite app_length in L1; cbn [length] in L1). rewrite !app_length in L2. rewrite app_length.
    assert (L : (length (concat ss) <= length e + length rest)%nat) by lia. clear - Fs L.
    induction Fs as [|x y xs ys S F IH]; constructor.
    - exists x. split; [exact S|]. cbn [concat] in L. rewrite app_length in L. lia.
    - apply IH. cbn [concat] in L. rewrite app_length in L. lia.
  Qed.

Section Signature.
  Variable sha256 : bytes -> bytes.
  Hypothesis sha_len : forall x, length (sha256 x) = 32%nat.

  Theorem signature_octets : forall d o c content content' cert key,
    signed_object d o content cert (map signer_triple (sd_signers (co_data c))) ->
    Forall attrs_good (sd_signers (co_data c)) ->
    Z.of_nat (length d) < 2 ^ 48 -> validate_obj sha256 c content' key = Ret true ->
    exists n p, key = RSAPtr n (Zpos p) /\ signature_checked sha256 (map signer_triple (sd_signers (co_data c))) content' n p.
  Proof using All.
    intros d o c content content' cert key S G Ld H. apply object_size in S.
    unfold validate_obj in H. destruct (cms_validate sha256 set_octets (cms_view c) content' key) as [[|]|] eqn:V; try discriminate. clear H.
    destruct (validate_sound sha256 set_octets sha_len _ _ _ V) as (si & rest & n & p & s & x & Es & -> & D & M & X1 & X2).
    exists n, p. split; [reflexivity|]. cbn [cms_view c_signers] in Es.
    destruct (sd_signers (co_data c)) as [|sg sgs]; [discriminate|]. cbn [map] in *. injection Es as Esi _. subst si.
    cbn [si_attrs si_sig] in *. inversion S as [|? ? (e & Se & Le) _]; subst. inversion G as [|? ? Gs _]; subst.
    unfold signer_triple in Se. destruct (signer_size _ _ _ _ Se) as (es & Fa & La).
    destruct (attrs_remade es (sg_attrs sg) Fa ltac:(lia)) as [Fr Lr].
    unfold set_octets in M. apply some_eq in M.
    set (as' := map attr_octets (map attr_view (sg_attrs sg))) in *. pose proof (sort_perm as') as Pm.
    pose proof (concat_perm_length _ _ Pm) as Lp.
    assert (Ms : s = 49 :: encode_length (Z.of_nat (length (concat (sort_bytes as')))) ++ concat (sort_bytes as')).
    { rewrite <- M, put_tlv_low by lia. reflexivity. }
    assert (Ls : Z.of_nat (length (concat (sort_bytes as'))) < 2 ^ 60) by (rewrite <- Lp; lia).
    assert (Ls2 : Z.of_nat (length s) < 2 ^ 62).
    { rewrite Ms. pose proof (make_length 49 (concat (sort_bytes as')) ltac:(lia)). lia. }
    exists (map attr_pair (sg_attrs sg)), (r_full (sg_alg sg)), (sg_sig sg), (map signer_triple sgs), s,
      (48 :: encode_length (Z.of_nat (length s)) ++ s).
    split; [reflexivity|]. split; [exact (digest_attrs _ _ _ Fa Gs D)|]. split.
    - apply (attribute_set_of _ as' (sort_bytes as')); [exact Fr|exact Pm|]. rewrite Ms. apply coded_make. lia.
    - split; [now apply coded_make|]. intros Hn. specialize (X1 Hn). specialize (X2 Hn).
      destruct X2 as (l1 & l2 & l3 & alg & ex & tr & E & D2 & D3).
      destruct (int_bytes (addr_val (sg_sig sg) ^ Zpos p mod n)) as [I1 I2]; [apply Z.mod_pos_bound; lia|].
      exists (bytes_of_int (addr_val (sg_sig sg) ^ Zpos p mod n)), x, l1, l2, l3, alg, ex, tr.
      split; [exact I1|]. split; [exact I2|]. split; [exact X1|]. split; [exact E|]. auto.
  Qed.

  Variable x509_parse : bytes -> option (cert * list (list Z * bytes)).

  Theorem roa_written : forall strict d r s, bytes_ok d = true -> Z.of_nat (length d) < 2 ^ 48 ->
    decode_roa sha256 x509_parse strict d = Ret (Some (r, s)) ->
    exists o content cert signers, content_type d = Some o /\ signed_object d o content cert signers /\
      roa_octets content (roa_asn r) (roa_entries r) /\ decode_certificate x509_parse cert = Some (roa_cert r) /\
      (roa_inner r = true -> exists n p, c_key (roa_cert r) = RSAPtr n (Zpos p) /\ signature_checked sha256 signers content n p).
  Proof using All.
    intros strict d r s O L H. unfold decode_roa in H. destruct (decode_cms d) as [c|] eqn:Ec; [|discriminate].
    destruct (strict_ok strict c); [|discriminate]. cbn [negb] in H.
    destruct (bindopt (inner_octets c) grouped) as [[content bad]|] eqn:G; [|discriminate].
    destruct (signed_grammar _ _ _ _ O Ec G) as (o & T & S & A).
    assert (Oc : bytes_ok content = true).
    { apply (content_ok d c content bad); auto. }
    destruct (read_as t_roa_content roa_content_of content) as [[asn blocks]|] eqn:R; [|discriminate].
    destruct (convert_entries blocks) as [entries|] eqn:E; [|discriminate].
    destruct (get_signing_time c) as [st|]; [|discriminate]. cbn [gbind] in H.
    destruct (decode_certificate x509_parse (r_bytes (sd_certs (co_data c)))) as [ee|] eqn:D; [|discriminate].
    destruct (validate_obj sha256 c content (c_key ee)) as [ok|] eqn:V; [|discriminate]. cbn [gbind] in H.
    destruct (validate_roa_list entries (c_ips ee)) as [sp|]; [|discriminate]. cbn [gbind] in H.
    assert (r = mkRoa ee asn entries ok) by congruence. subst r. cbn [roa_asn roa_entries roa_cert roa_inner] in *.
    exists o, content, (r_bytes (sd_certs (co_data c))), (map signer_triple (sd_signers (co_data c))).
    split; [exact T|]. split; [exact S|]. split; [exact (roa_grammar _ _ _ _ Oc R E)|]. split; [exact D|].
    intros ->. exact (signature_octets _ _ _ _ _ _ _ S A L V).
  Qed.

  Theorem mft_written : forall strict d m c, bytes_ok d = true -> Z.of_nat (length d) < 2 ^ 46 ->
    decode_mft sha256 x509_parse strict d = Ret (Some (m, c)) ->
    exists o inside content cert signers n, content_type d = Some o /\ signed_object d o inside cert signers /\
      ber2der inside = BOk content /\
      manifest_octets content n (mc_this c) (mc_next c) (mc_alg c) (mc_files c) /\
      calendar (mc_this c) /\ calendar (mc_next c) /\
      mft_this m = instant (mc_this c) /\ mft_next m = instant (mc_next c) /\
      mft_files m = map (fun f => (fst f, bs_bytes (snd f))) (mc_files c) /\
      decode_certificate x509_parse cert = Some (mft_cert m) /\
      (mft_inner m = true -> exists k p, c_key (mft_cert m) = RSAPtr k (Zpos p) /\ signature_checked sha256 signers content k p).
  Proof using All.
    intros strict d m mc O L H. unfold decode_mft in H. destruct (decode_cms d) as [c|] eqn:Ec; [|discriminate].
    destruct (strict_ok strict c); [|discriminate]. cbn [negb] in H.
    destruct (bindopt (inner_octets c) grouped) as [[inside bad]|] eqn:G; [|discriminate].
    destruct (signed_grammar _ _ _ _ O Ec G) as (o & T & S & A).
    assert (Oc : bytes_ok inside = true) by (apply (content_ok d c inside bad); auto).
    destruct (to_der inside) as [content|] eqn:Td; [|discriminate]. cbn [gbind] in H.
    destruct (read_as t_mft_content mft_content_of content) as [mc'|] eqn:R; [|discriminate].
    assert (B : ber2der inside = BOk content).
    { unfold to_der in Td. destruct (ber2der inside); try discriminate; [congruence|].
      assert (content = []) by congruence. subst content. discriminate. }
    pose proof (ber2der_ok _ _ Oc B) as Ok.
    destruct (decode_certificate x509_parse (r_bytes (sd_certs (co_data c)))) as [ee|] eqn:D; [|discriminate].
    destruct (validate_obj sha256 c content (c_key ee)) as [ok|] eqn:V; [|discriminate]. cbn [gbind] in H.
    match type of H with Ret (Some (?x, _)) = _ => assert (Em : m = x) by congruence end.
    assert (mc' = mc) by congruence. subst mc' m. clear H. cbn [mft_this mft_next mft_files mft_cert mft_inner] in *.
    destruct (manifest_grammar _ _ Ok R) as (n & Hn & M).
    assert (Cal : calendar (mc_this mc) /\ calendar (mc_next mc)).
    { clear - M. inversion M as [e e0 e1 e2 e3 e4 junk rest c0 c3 es n' this next alg files C C0 N0 T1 T2]; subst.
      split; [clear T2; rename T1 into T|clear T1; rename T2 into T];
        inversion T as [k e' t Ck Ut|k e' t Ck Ut]; subst;
        [destruct Ut as (y & r & yy & se & Ut)|destruct Ut as (y & r & Ut)|destruct Ut as (y & r & yy & se & Ut)|destruct Ut as (y & r & Ut)];
        intuition. }
    destruct Cal as [Cal1 Cal2].
    exists o, inside, content, (r_bytes (sd_certs (co_data c))), (map signer_triple (sd_signers (co_data c))), n.
    repeat (match goal with |- _ /\ _ => split end); try assumption; try reflexivity; try (now apply unix_instant).
    intros ->. exact (signature_octets _ _ _ _ _ _ _ S A ltac:(lia) V).
  Qed.
End Signature.
