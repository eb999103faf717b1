(** Signed objects: what signature validation accepts. *)
From Coq Require Import Lia ZifyBool ZifyNat.
From Verif.Model Require Import Base Str Tal Ber Asn1 Cms.
From Verif.Spec Require Import Addr BerSpec CmsSpec.
From Verif.Proofs Require Import StrProofs NetIPProofs BerProofs Asn1Proofs.
Ltac Zify.zify_post_hook ::= Z.div_mod_to_equations.

(** ** Fragments *)
Lemma fragment_inv : forall c b, fragment c b ->
  exists l, b = 4 :: l ++ c /\ der_len (Z.of_nat (length c)) l /\ Z.of_nat (length c) < 2 ^ 31.
Proof. intros c b [H L]. inversion H; subst. cbn [app]. eauto. Qed.

Lemma fragment_intro : forall c l, bytes_ok c = true ->
  der_len (Z.of_nat (length c)) l -> Z.of_nat (length c) < 2 ^ 31 -> fragment c (4 :: l ++ c).
Proof.
  intros c l O H L. split; [|exact L]. apply (der_prim [4]); auto.
  apply tag_low; [lia|discriminate|reflexivity].
Qed.

Lemma match_nonempty : forall A B (l : list A) (a b : B), l <> [] ->
  match l with [] => a | _ :: _ => b end = b.
Proof. intros A B l a b H. destruct l; [congruence|reflexivity]. Qed.

Lemma group_loop_frags : forall cs bs, Forall2 fragment cs bs -> cs <> [] ->
  forall fuel full it, (length bs <= fuel)%nat ->
  group_loop fuel (concat bs) full it = Some (full ++ concat cs, (it + length cs)%nat, true).
Proof.
  induction 1 as [|c b cs bs Hf F IH]; intros N fuel full it L; [congruence|].
  destruct fuel as [|fuel]; [cbn in L; lia|]. cbn [length] in L.
  destruct (fragment_inv _ _ Hf) as (l & -> & Hl & Hc).
  cbn [group_loop concat app]. rewrite <- app_assoc.
  rewrite (parse_octets_read l c (concat bs) Hl Hc).
  destruct cs as [|c' cs].
  - inversion F; subst. cbn. rewrite app_nil_r. do 2 f_equal. f_equal. lia.
  - inversion F as [|? b' ? bs' Hf' F']; subst.
    assert (concat (b' :: bs') <> []).
    { destruct (fragment_inv _ _ Hf') as (l' & -> & _). discriminate. }
    rewrite match_nonempty by assumption.
    rewrite IH by (auto; try congruence; lia). rewrite <- app_assoc. do 2 f_equal.
    cbn [length]. f_equal. lia.
Qed.

Lemma group_loop_inv : forall fuel data full it out k, bytes_ok data = true ->
  group_loop fuel data full it = Some (out, k, true) ->
  exists cs bs, Forall2 fragment cs bs /\ data = concat bs /\ out = full ++ concat cs /\ cs <> [] /\
                (k = it + length cs)%nat.
Proof.
  induction fuel as [|fuel IH]; intros data full it out k O H; [discriminate|].
  cbn [group_loop] in H. destruct (parse_octets data) as [[c rest]|] eqn:E; [|discriminate].
  destruct (parse_octets_inv _ _ _ O E) as (lo & -> & Hl & Hc).
  assert (Oc : bytes_ok c = true /\ bytes_ok rest = true).
  { apply bytes_ok_cons in O as [_ O]. apply bytes_ok_app in O as [_ O]. now apply bytes_ok_app in O. }
  destruct Oc as [Oc Or].
  destruct rest as [|x r].
  - injection H as <- <-. exists [c], [4 :: lo ++ c].
    split; [constructor; [now apply fragment_intro|constructor]|].
    cbn [concat app length]. rewrite !app_nil_r. repeat split; auto; try congruence. lia.
  - destruct (IH _ _ _ _ _ Or H) as (cs & bs & F & -> & -> & N & ->).
    exists (c :: cs), ((4 :: lo ++ c) :: bs). split; [constructor; [now apply fragment_intro|exact F]|].
    split; [cbn [concat app]; now rewrite <- app_assoc|].
    split; [cbn [concat]; now rewrite app_assoc|]. split; [congruence|]. cbn [length]. lia.
Qed.

Lemma group_loop_total : forall fuel data full it, bytes_ok data = true -> (length data < fuel)%nat ->
  group_loop fuel data full it <> None.
Proof.
  induction fuel as [|fuel IH]; intros data full it O L; [lia|]. cbn [group_loop].
  destruct (parse_octets data) as [[c rest]|] eqn:E; [|congruence].
  destruct (parse_octets_inv _ _ _ O E) as (lo & -> & _).
  destruct rest as [|x r]; [congruence|].
  apply IH; [|cbn [length] in *; rewrite !app_length in L; cbn [length] in L; lia].
  apply bytes_ok_cons in O as [_ O]. apply bytes_ok_app in O as [_ O]. now apply bytes_ok_app in O.
Qed.

Lemma frags_length : forall cs bs, Forall2 fragment cs bs -> (length bs <= length (concat bs))%nat.
Proof.
  induction 1 as [|c b cs bs Hf F IH]; [cbn; lia|]. cbn [concat length]. rewrite app_length.
  destruct (fragment_inv _ _ Hf) as (l & -> & _). cbn [length]. lia.
Qed.

(** Fragments are put together in order ... *)
Theorem group_fragments : forall cs bs, Forall2 fragment cs bs -> cs <> [] ->
  bad_format_group (concat bs) = Some (concat cs, (1 <? length cs)%nat, true).
Proof.
  intros cs bs F N. unfold bad_format_group.
  assert (P : exists r rest, parse_raw (concat bs) = Some (r, rest) /\ r_tag r = 4).
  { destruct F as [|c b cs bs Hf F]; [congruence|]. destruct (fragment_inv _ _ Hf) as (l & -> & Hl & Hc).
    cbn [concat app]. rewrite <- app_assoc. rewrite parse_raw_read by (auto; discriminate).
    eexists _, _. split; [reflexivity|]. reflexivity. }
  destruct P as (r & rest & -> & ->). cbn [Z.eqb Pos.eqb].
  rewrite (group_loop_frags _ _ F N) by (pose proof (frags_length _ _ F); lia). reflexivity.
Qed.

(** ... and nothing else is accepted, unless the data do not start with an
    octet string: then its first value is taken as it is. *)
Theorem group_inv : forall data out many, bytes_ok data = true ->
  bad_format_group data = Some (out, many, true) ->
  (exists cs bs, Forall2 fragment cs bs /\ cs <> [] /\ data = concat bs /\ out = concat cs /\
                 many = (1 <? length cs)%nat) \/
  (many = false /\ exists rest r, data = out ++ rest /\ parse_raw data = Some (r, rest) /\ r_tag r <> 4).
Proof.
  intros data out many O H. unfold bad_format_group in H.
  destruct (parse_raw data) as [[r rest]|] eqn:E; [|discriminate].
  destruct (r_tag r =? 4) eqn:T.
  - left. destruct (group_loop _ data [] 0) as [[[f it] ok]|] eqn:G; [|discriminate].
    injection H as <- <- ->. destruct (group_loop_inv _ _ _ _ _ _ O G) as (cs & bs & F & -> & -> & N & ->).
    exists cs, bs. repeat split; auto.
  - right. injection H as <- <-. split; [reflexivity|]. exists rest, r.
    destruct (parse_raw_inv _ _ _ O E) as (tg & lo & Ed & Ef & _).
    split; [|split; [reflexivity|lia]]. rewrite Ed, Ef. now rewrite <- !app_assoc.
Qed.

Theorem group_terminates : forall data, bytes_ok data = true -> bad_format_group data <> None.
Proof.
  intros data O. unfold bad_format_group. destruct (parse_raw data) as [[r rest]|]; [|congruence].
  destruct (r_tag r =? 4); [|congruence].
  destruct (group_loop (S (length data)) data [] 0) as [[[f it] ok]|] eqn:G; [congruence|].
  exfalso. eapply group_loop_total; [exact O| |exact G]. lia.
Qed.

(** ** Numbers *)
Lemma int_of_bytes_bval : forall l, int_of_bytes l = bval l.
Proof. intros l. unfold int_of_bytes. rewrite fold_val. lia. Qed.

Lemma bytes_of_int_aux_app : forall l fuel acc, bytes_ok l = true -> (l <> [] -> hd 0 l <> 0) ->
  (length l <= fuel)%nat -> bytes_of_int_aux fuel (bval l) acc = l ++ acc.
Proof.
  induction l as [|x l IH] using rev_ind; intros fuel acc O H L.
  - destruct fuel; reflexivity.
  - rewrite app_length in L. cbn [length] in L. destruct fuel as [|fuel]; [lia|]. cbn [bytes_of_int_aux].
    apply bytes_ok_app in O as [O Ox]. apply bytes_ok_cons in Ox as [Hx _].
    rewrite bval_app. cbn [bval length]. change (256 ^ Z.of_nat 0) with 1. change (256 ^ Z.of_nat 1) with 256.
    pose proof (bval_bound l O) as B.
    assert (NZ : bval l * 256 + (x * 1 + 0) <> 0).
    { destruct l as [|y l].
      - specialize (H ltac:(discriminate)). cbn in H. cbn [bval]. lia.
      - specialize (H ltac:(discriminate)). cbn [hd app] in H.
        destruct (hd_bval (y :: l) O H) as [_ P]. pose proof (pow256_pos (length (y :: l) - 1)). lia. }
    destruct (bval l * 256 + (x * 1 + 0) =? 0) eqn:E; [lia|].
    replace ((bval l * 256 + (x * 1 + 0)) / 256) with (bval l) by lia.
    replace ((bval l * 256 + (x * 1 + 0)) mod 256) with x by lia.
    rewrite IH.
    + now rewrite <- app_assoc.
    + exact O.
    + intros N. specialize (H ltac:(destruct l; discriminate)). destruct l; [congruence|exact H].
    + lia.
Qed.

Lemma bytes_of_int_bval : forall l, bytes_ok l = true -> (l <> [] -> hd 0 l <> 0) ->
  bytes_of_int (bval l) = l.
Proof.
  intros l O H. unfold bytes_of_int. rewrite <- (app_nil_r l) at 3.
  destruct l as [|x l].
  - reflexivity.
  - apply bytes_of_int_aux_app; auto. specialize (H ltac:(discriminate)).
    destruct (hd_bval _ O H) as [_ P]. cbn [length] in *. replace (S (length l) - 1)%nat with (length l) in P by lia.
    rewrite pow256 in P. apply Z.log2_le_mono in P. rewrite Z.log2_pow2 in P by lia. lia.
Qed.

Lemma bytes_of_int_exists : forall k v, 0 <= v < 256 ^ Z.of_nat k ->
  exists g, length g = k /\ bytes_ok g = true /\ bval g = v.
Proof.
  intros k v H. exists (marshal_long k v). destruct (marshal_long_bval k v ltac:(lia)) as (L & O & V).
  split; [exact L|]. split; [exact O|]. rewrite V. apply Z.mod_small. exact H.
Qed.

Lemma nat_bytes : forall v, 0 < v -> exists l, bytes_ok l = true /\ l <> [] /\ hd 0 l <> 0 /\ bval l = v.
Proof.
  intros v Hv.
  assert (G : forall k, v < 256 ^ Z.of_nat k -> exists l, bytes_ok l = true /\ l <> [] /\ hd 0 l <> 0 /\ bval l = v).
  { induction k as [|k IH]; intros H.
    - change (256 ^ Z.of_nat 0) with 1 in H. lia.
    - destruct (Z_lt_le_dec v (256 ^ Z.of_nat k)) as [L|L]; [auto|].
      destruct (bytes_of_int_exists (S k) v ltac:(lia)) as (g & Lg & Og & Vg).
      exists g. split; [exact Og|]. split; [destruct g; discriminate|]. split; [|exact Vg].
      destruct g as [|x g]; [discriminate|]. cbn [hd]. intros ->. cbn [bval] in Vg.
      apply bytes_ok_cons in Og as [_ Og]. pose proof (bval_bound g Og) as B. injection Lg as Lg. rewrite Lg in B. lia. }
  apply (G (S (Z.to_nat (Z.log2 v)))). rewrite pow256.
  eapply Z.lt_le_trans; [apply Z.log2_spec; exact Hv|]. apply Z.pow_le_mono_r; [lia|].
  pose proof (Z.log2_nonneg v). lia.
Qed.

Lemma pow_mod_spec : forall m e n, 0 < n -> pow_mod m e n = m ^ Zpos e mod n.
Proof.
  intros m e n Hn. induction e as [p IH|p IH|]; cbn [pow_mod].
  - rewrite IH. rewrite Pos2Z.inj_xI, Z.pow_add_r, Z.pow_1_r by lia.
    rewrite (Z.mul_comm 2), Z.pow_mul_r, Z.pow_2_r by lia.
    rewrite <- Z.mul_mod by lia. now rewrite Z.mul_mod_idemp_l by lia.
  - rewrite IH. rewrite Pos2Z.inj_xO, (Z.mul_comm 2), Z.pow_mul_r, Z.pow_2_r by lia.
    now rewrite <- Z.mul_mod by lia.
  - now rewrite Z.pow_1_r.
Qed.

(** ** Padding *)
Lemma find_skip_pad : forall m i di, find_skip i (repeat 255 (S m) ++ 0 :: di) = (i + m + 2)%nat.
Proof.
  induction m as [|m IH]; intros i di.
  - cbn. lia.
  - change (repeat 255 (S (S m)) ++ 0 :: di) with (255 :: repeat 255 (S m) ++ 0 :: di).
    cbn [find_skip]. destruct (repeat 255 (S m) ++ 0 :: di) as [|b r] eqn:E; [discriminate|].
    assert (b = 255) as -> by (cbn in E; congruence). cbn [Z.eqb Pos.eqb andb]. rewrite <- E, IH. lia.
Qed.

Lemma find_skip_inv : forall l i, find_skip i l = O \/
  exists pre rest, l = pre ++ 255 :: 0 :: rest /\ find_skip i l = (i + length pre + 2)%nat.
Proof.
  induction l as [|a l IH]; intros i; [now left|]. cbn [find_skip]. destruct l as [|b l]; [now left|].
  destruct ((a =? 255) && (b =? 0)) eqn:E.
  - right. exists [], l. apply andb_true_iff in E as [E1 E2]. apply Z.eqb_eq in E1, E2. subst. split; [reflexivity|]. cbn. lia.
  - destruct (IH (S i)) as [H|(pre & rest & H & K)]; [now left|]. right.
    exists (a :: pre), rest. rewrite H, <- H, K. split; [now rewrite H|]. cbn [length]. lia.
Qed.

Lemma skipn_app_exact : forall A (a b : list A), skipn (length a) (a ++ b) = b.
Proof. intros. rewrite skipn_app, Nat.sub_diag, skipn_all. reflexivity. Qed.

(** What is left after the padding is removed: everything, or what follows
    some FF 00. *)
Lemma decrypt_shape : forall n p sig, 0 < n ->
  let out := bytes_of_int (addr_val sig ^ Zpos p mod n) in
  rsa_public_decrypt n p sig = out \/
  exists pre, out = pre ++ 255 :: 0 :: rsa_public_decrypt n p sig /\ (2 <= length pre)%nat.
Proof.
  intros n p sig Hn out. unfold rsa_public_decrypt. rewrite pow_mod_spec by exact Hn.
  change (int_of_bytes sig) with (addr_val sig). fold out.
  destruct (find_skip_inv (skipn 2 out) 2) as [->|(pre & rest & H & K)]; [now left|]. right.
  assert (L : (2 <= length out)%nat).
  { destruct out as [|a [|b out']]; cbn in H; [destruct pre; discriminate|destruct pre; discriminate|cbn; lia]. }
  exists (firstn 2 out ++ pre). split; [|rewrite app_length, firstn_length; lia].
  rewrite K. rewrite <- (firstn_skipn 2 out) at 1. rewrite H. rewrite <- !app_assoc. do 2 f_equal.
  change (255 :: 0 :: rest) with ([255; 0] ++ rest). cbn [app]. do 2 f_equal.
  rewrite <- (firstn_skipn 2 out), H. rewrite app_assoc.
  change (255 :: 0 :: rest) with ([255; 0] ++ rest). rewrite app_assoc.
  replace (2 + length pre + 2)%nat with (length ((firstn 2 out ++ pre) ++ [255; 0])).
  - now rewrite skipn_app_exact.
  - rewrite !app_length, firstn_length. cbn [length]. lia.
Qed.

Lemma bytes_of_int_ok : forall v, 0 <= v -> bytes_ok (bytes_of_int v) = true.
Proof.
  assert (G : forall fuel v acc, 0 <= v -> bytes_ok acc = true -> bytes_ok (bytes_of_int_aux fuel v acc) = true).
  { induction fuel as [|fuel IH]; intros v acc Hv Ha; [exact Ha|]. cbn [bytes_of_int_aux].
    destruct (v =? 0); [exact Ha|]. apply IH; [lia|]. apply bytes_ok_cons. split; [lia|exact Ha]. }
  intros v Hv. now apply G.
Qed.

Lemma decrypt_ok : forall n p sig, 0 < n -> bytes_ok (rsa_public_decrypt n p sig) = true.
Proof.
  intros n p sig Hn. pose proof (decrypt_shape n p sig Hn) as H. cbv zeta in H.
  assert (O : bytes_ok (bytes_of_int (addr_val sig ^ Zpos p mod n)) = true).
  { apply bytes_of_int_ok. apply Z.mod_pos_bound. exact Hn. }
  destruct H as [->|(pre & E & _)]; [exact O|]. rewrite E in O.
  apply bytes_ok_app in O as [_ O]. apply bytes_ok_cons in O as [_ O]. now apply bytes_ok_cons in O.
Qed.

(** ** The digest structure *)
Lemma short_len : forall n, 0 <= n < 128 -> der_len n [n].
Proof. intros n H. split; [now constructor|]. cbn. lia. Qed.

Lemma parse_signature_info : forall h g, length h = 32%nat ->
  parse_signature (digest_info h ++ g) = Some h.
Proof.
  intros h g L. unfold digest_info, parse_signature, parse_struct.
  rewrite <- app_assoc.
  change ([48; 49; 48; 13; 6; 9; 96; 134; 72; 1; 101; 3; 4; 2; 1; 5; 0; 4; 32] ++ h ++ g)
    with (48 :: [49] ++ ([48; 13; 6; 9; 96; 134; 72; 1; 101; 3; 4; 2; 1; 5; 0; 4; 32] ++ h) ++ g).
  rewrite parse_raw_read; [|discriminate| |].
  2:{ rewrite app_length, L. apply short_len. cbn. lia. }
  2:{ rewrite app_length, L. cbn. lia. }
  cbn [r_class r_cons r_tag r_bytes]. change (48 / 64 =? 0) with true. change (negb (48 / 32 mod 2 =? 0)) with true.
  change (48 mod 32 =? 16) with true. cbn [andb].
  change ([48; 13; 6; 9; 96; 134; 72; 1; 101; 3; 4; 2; 1; 5; 0; 4; 32] ++ h)
    with (48 :: [13] ++ [6; 9; 96; 134; 72; 1; 101; 3; 4; 2; 1; 5; 0] ++ (4 :: 32 :: h)).
  rewrite parse_raw_read; [|discriminate|apply short_len; cbn; lia|cbn; lia].
  cbn [r_class r_cons r_tag r_bytes]. change (48 / 64 =? 0) with true. change (negb (48 / 32 mod 2 =? 0)) with true.
  change (48 mod 32 =? 16) with true. cbn [andb].
  change (parse_oid [6; 9; 96; 134; 72; 1; 101; 3; 4; 2; 1; 5; 0]) with (Some ([96; 134; 72; 1; 101; 3; 4; 2; 1], [5; 0])).
  cbv iota beta. change (parse_raw [5; 0]) with (Some (mkRaw 0 false 5 [] [5; 0], [] : bytes)). cbv iota beta.
  change (4 :: 32 :: h) with (4 :: [32] ++ h). rewrite <- (app_nil_r h) at 1.
  rewrite parse_octets_read; [reflexivity| |rewrite L; cbn; lia].
  rewrite L. apply short_len. cbn. lia.
Qed.

Lemma parse_struct_inv : forall d c rest, bytes_ok d = true -> parse_struct d = Some (c, rest) ->
  exists lo, d = 48 :: lo ++ c ++ rest /\ der_len (Z.of_nat (length c)) lo.
Proof.
  intros d c rest O H. unfold parse_struct in H.
  destruct (parse_raw d) as [[r rs]|] eqn:E; [|discriminate].
  destruct ((r_class r =? 0) && r_cons r && (r_tag r =? 16)) eqn:T; [|discriminate]. injection H as <- <-.
  destruct (parse_raw_inv _ _ _ O E) as (tg & lo & Ed & _ & Hl & Hc & Ht & C1 & C2 & C3 & C4).
  apply andb_true_iff in T as [T T3]. apply andb_true_iff in T as [T1 T2].
  destruct tg as [|b tg]; [congruence|]. cbn [hd] in *.
  assert (Ob : 0 <= b < 256) by (rewrite Ed in O; cbn [app] in O; apply bytes_ok_cons in O; tauto).
  destruct (Z.eq_dec (b mod 32) 31) as [X|X]; [apply C4 in X; lia|].
  apply C3 in X. destruct X as [X Y]. injection X as ->. exists lo. split; [|auto].
  rewrite Ed. cbn [app]. f_equal. rewrite C2 in T2. lia.
Qed.

(** A digest is read only from this structure, with any algorithm and any
    octets after it. *)
Lemma parse_signature_inv : forall x h, bytes_ok x = true -> parse_signature x = Some h ->
  exists l1 l2 l3 alg extra trail,
    x = 48 :: l1 ++ (48 :: l2 ++ alg ++ 4 :: l3 ++ h ++ extra) ++ trail /\
    der_len (Z.of_nat (length alg)) l2 /\ der_len (Z.of_nat (length h)) l3.
Proof.
  intros x h O H. unfold parse_signature in H.
  destruct (parse_struct x) as [[c trail]|] eqn:E1; [|discriminate].
  destruct (parse_struct_inv _ _ _ O E1) as (l1 & -> & D1).
  assert (Oc : bytes_ok c = true).
  { apply bytes_ok_cons in O as [_ O]. apply bytes_ok_app in O as [_ O]. now apply bytes_ok_app in O. }
  destruct (parse_struct c) as [[alg rest]|] eqn:E2; [|discriminate].
  destruct (parse_struct_inv _ _ _ Oc E2) as (l2 & -> & D2).
  assert (Or : bytes_ok rest = true).
  { apply bytes_ok_cons in Oc as [_ Oc]. apply bytes_ok_app in Oc as [_ Oc]. now apply bytes_ok_app in Oc. }
  destruct (parse_oid alg) as [[o r1]|]; [|discriminate].
  destruct (parse_raw r1); [|discriminate].
  destruct (parse_octets rest) as [[h' extra]|] eqn:E3; [|discriminate]. injection H as ->.
  destruct (parse_octets_inv _ _ _ Or E3) as (l3 & -> & D3 & _).
  exists l1, l2, l3, alg, extra, trail. auto.
Qed.

(** ** The digest attribute *)
Definition qualifies (a : attr) : bool :=
  match a_values a with [_] => beq (a_type a) oid_message_digest | _ => false end.

Lemma message_digest_app : forall l a,
  message_digest (l ++ [a]) =
  match a_values a with
  | [(_, v)] => if beq (a_type a) oid_message_digest then v else message_digest l
  | _ => message_digest l
  end.
Proof. intros l a. unfold message_digest. now rewrite fold_left_app. Qed.

Lemma message_digest_spec : forall l,
  (exists v, digest_of a_type a_values l v /\ message_digest l = v) \/
  ((forall a v, In a l -> ~ carries a_type a_values a v) /\ message_digest l = []).
Proof.
  induction l as [|a l IH] using rev_ind.
  - right. split; [easy|reflexivity].
  - rewrite message_digest_app.
    destruct (a_values a) as [|[f v] [|y ys]] eqn:V.
    + destruct IH as [(v & (pre & b & post & -> & C & N) & E)|[N E]].
      * left. exists v. split; [|exact E]. exists pre, b, (post ++ [a]). rewrite <- app_assoc. split; [reflexivity|].
        split; [exact C|]. intros b' w [K|[<-|[]]]%in_app_iff; [auto|]. intros [_ [f K]]. congruence.
      * right. split; [|exact E]. intros b w [K|[<-|[]]]%in_app_iff; [auto|]. intros [_ [f K]]. congruence.
    + destruct (beq (a_type a) oid_message_digest) eqn:B.
      * left. exists v. split; [|reflexivity]. exists l, a, []. split; [reflexivity|].
        split; [|easy]. split; [now apply beq_eq in B|eauto].
      * apply beq_neq in B.
        destruct IH as [(w & (pre & b & post & -> & C & N) & E)|[N E]].
        -- left. exists w. split; [|exact E]. exists pre, b, (post ++ [a]). rewrite <- app_assoc. split; [reflexivity|].
           split; [exact C|]. intros b' w' [K|[<-|[]]]%in_app_iff; [auto|]. intros [K _]. contradiction.
        -- right. split; [|exact E]. intros b w [K|[<-|[]]]%in_app_iff; [auto|]. intros [K _]. contradiction.
    + destruct IH as [(w & (pre & b & post & -> & C & N) & E)|[N E]].
      * left. exists w. split; [|exact E]. exists pre, b, (post ++ [a]). rewrite <- app_assoc. split; [reflexivity|].
        split; [exact C|]. intros b' w' [K|[<-|[]]]%in_app_iff; [auto|]. intros [_ [g K]]. congruence.
      * right. split; [|exact E]. intros b w [K|[<-|[]]]%in_app_iff; [auto|]. intros [_ [g K]]. congruence.
Qed.

Lemma digest_of_fun : forall l v w, digest_of a_type a_values l v -> digest_of a_type a_values l w -> v = w.
Proof.
  intros l v w (p & a & q & -> & C & N) (p' & a' & q' & E & C' & N').
  revert p' E. induction p as [|x p IH]; intros [|x' p'] E; cbn [app] in E; injection E as E1 E2.
  - subst a'. destruct C as [_ [f C]], C' as [_ [f' C']]. congruence.
  - exfalso. subst. apply (N a' w); [|exact C']. apply in_app_iff. right. now left.
  - exfalso. subst. apply (N' a v); [|exact C]. apply in_app_iff. right. now left.
  - now apply (IH p').
Qed.

Lemma block_ok : forall k h, bytes_ok h = true -> bytes_ok (repeat 255 k ++ 0 :: digest_info h) = true.
Proof.
  intros k h Oh. apply bytes_ok_app. split.
  - induction k as [|k IH]; [reflexivity|]. cbn [repeat]. apply bytes_ok_cons. split; [lia|exact IH].
  - apply bytes_ok_cons. split; [lia|]. unfold digest_info. apply bytes_ok_app. split; [reflexivity|exact Oh].
Qed.

Lemma sad_skip : forall s, Z.of_nat (length s) < 2 ^ 63 ->
  skipn 2 (48 :: encode_length (Z.of_nat (length s)) ++ s) =
  (if Z.of_nat (length s) <? 128 then s
   else skipn 1 (encode_length (Z.of_nat (length s))) ++ s) /\
  (Z.of_nat (length s) <? 128 = false -> skipn 1 (encode_length (Z.of_nat (length s))) <> []).
Proof.
  intros s L. pose proof (encode_length_der (Z.of_nat (length s)) ltac:(lia)) as [H Hs].
  set (el := encode_length (Z.of_nat (length s))) in *. clearbody el. cbn [skipn].
  destruct (Z.of_nat (length s) <? 128) eqn:E.
  - destruct el as [|a [|b el]].
    + apply Z.ltb_lt in E. apply Hs in E. discriminate.
    + split; [reflexivity|discriminate].
    + apply Z.ltb_lt in E. apply Hs in E. discriminate.
  - destruct el as [|a [|b el]].
    + inversion H.
    + exfalso. assert (Z.of_nat (length s) < 128) by (apply Hs; reflexivity). lia.
    + split; [reflexivity|discriminate].
Qed.

(** What is hashed as "signed attributes". *)
Definition hashed (s : bytes) : bytes := skipn 2 (48 :: encode_length (Z.of_nat (length s)) ++ s).

Lemma hashed_short : forall s, Z.of_nat (length s) < 128 -> hashed s = s.
Proof.
  intros s L. unfold hashed. destruct (sad_skip s ltac:(lia)) as [-> _].
  destruct (Z.of_nat (length s) <? 128) eqn:E; [reflexivity|lia].
Qed.

Lemma hashed_long : forall s, 128 <= Z.of_nat (length s) < 2 ^ 63 ->
  exists l, l <> [] /\ hashed s = l ++ s.
Proof.
  intros s L. unfold hashed. destruct (sad_skip s ltac:(lia)) as [-> N].
  destruct (Z.of_nat (length s) <? 128) eqn:E; [lia|]. eexists. split; [|reflexivity]. now apply N.
Qed.

(** A correct PKCS#1 v1.5 signature is decrypted to its digest. *)
Lemma rsa_signs_decrypt : forall n p sig h, 0 < n -> rsa_signs n (Zpos p) sig h ->
  parse_signature (rsa_public_decrypt n p sig) = Some h.
Proof.
  intros n p sig h Hn (em & (k & -> & Hk & Lh & Oh & _) & E).
  unfold rsa_public_decrypt. rewrite pow_mod_spec by exact Hn. change (int_of_bytes sig) with (addr_val sig).
  rewrite E, addr_val_bval.
  destruct k as [|[|k]]; [lia..|].
  set (out := 1 :: 255 :: repeat 255 (S k) ++ 0 :: digest_info h).
  assert (B : bval (0 :: 1 :: repeat 255 (S (S k)) ++ 0 :: digest_info h) = bval out).
  { change (repeat 255 (S (S k)) ++ 0 :: digest_info h) with (255 :: repeat 255 (S k) ++ 0 :: digest_info h).
    fold out. cbn [bval]. lia. }
  rewrite B, bytes_of_int_bval.
  - unfold out. cbn [skipn]. rewrite find_skip_pad.
    replace (2 + k + 2)%nat with (length (1 :: 255 :: repeat 255 (S k) ++ [0])).
    + change (1 :: 255 :: repeat 255 (S k) ++ 0 :: digest_info h)
        with ((1 :: 255 :: repeat 255 (S k)) ++ [0] ++ digest_info h).
      rewrite app_assoc. change (1 :: 255 :: repeat 255 (S k) ++ [0]) with ((1 :: 255 :: repeat 255 (S k)) ++ [0]).
      rewrite skipn_app_exact. rewrite <- (app_nil_r (digest_info h)). now apply parse_signature_info.
    + cbn [length]. rewrite app_length, repeat_length. cbn [length]. lia.
  - unfold out. rewrite !bytes_ok_cons. split; [lia|]. split; [lia|]. now apply block_ok.
  - intros _. discriminate.
Qed.

(** ** Forgery *)
Lemma cube_root : forall t, 0 <= t -> exists m, 0 <= m /\ (m = 0 \/ (m - 1) ^ 3 < t) /\ t <= m ^ 3.
Proof.
  apply natlike_ind.
  - exists 0. cbn. lia.
  - intros t Ht (m & Hm & Hl & Hu). unfold Z.succ.
    destruct (Z_le_gt_dec (t + 1) (m ^ 3)) as [L|G].
    + exists m. split; [lia|]. split; [|lia]. destruct Hl as [->|Hl]; [now left|right; lia].
    + exists (m + 1). split; [lia|]. replace (m + 1 - 1) with m by lia. split; [right; lia|].
      assert (E : (m + 1) ^ 3 = m ^ 3 + 3 * m ^ 2 + 3 * m + 1) by ring. nia.
Qed.

Lemma cube_between : forall t a b, 0 < t < 2 ^ (3 * a) -> 0 <= a -> 2 * a + 2 <= b ->
  exists m, 0 < m /\ t <= m ^ 3 < t + 2 ^ b.
Proof.
  intros t a b Ht Ha Hb. destruct (cube_root t ltac:(lia)) as (m & Hm & Hl & Hu).
  assert (M0 : 0 < m). { destruct (Z.eq_dec m 0) as [->|?]; [cbn in Hu; lia|lia]. }
  exists m. split; [exact M0|]. split; [exact Hu|].
  destruct Hl as [->|Hl]; [lia|].
  assert (P0 : 0 < 2 ^ a) by (apply Z.pow_pos_nonneg; lia).
  assert (B : m - 1 < 2 ^ a).
  { destruct (Z_lt_le_dec (m - 1) (2 ^ a)) as [L|G]; [exact L|]. exfalso.
    assert ((2 ^ a) ^ 3 <= (m - 1) ^ 3) by (apply Z.pow_le_mono_l; lia).
    rewrite <- Z.pow_mul_r in H by lia. rewrite (Z.mul_comm a 3) in H. lia. }
  assert (E : m ^ 3 = (m - 1) ^ 3 + 3 * m ^ 2 - 3 * m + 1) by ring.
  assert (S : m ^ 2 <= 2 ^ (2 * a)).
  { rewrite (Z.mul_comm 2 a), Z.pow_mul_r by lia. apply Z.pow_le_mono_l. lia. }
  assert (Q : 4 * 2 ^ (2 * a) <= 2 ^ b).
  { change 4 with (2 ^ 2). rewrite <- Z.pow_add_r by lia. apply Z.pow_le_mono_r; lia. }
  lia.
Qed.

(** For exponent 3 and every modulus above 2^1400, for every digest there is
    a signature that decrypts to it and that is not a PKCS#1 v1.5 signature
    of anything.  It is the integer cube root of a number, no private key is
    needed. *)
Lemma forge : forall n h, 2 ^ 1400 <= n -> length h = 32%nat -> bytes_ok h = true ->
  exists sig, bytes_ok sig = true /\ decrypt_signature_rsa n 3 sig = Some h /\
    forall h', ~ rsa_signs n 3 sig h'.
Proof.
  intros n h Hn Lh Oh.
  set (pre := [1; 1; 255; 0] ++ digest_info h).
  set (t := bval (pre ++ repeat 0 111)).
  assert (Opre : bytes_ok pre = true).
  { unfold pre, digest_info. apply bytes_ok_app. split; [reflexivity|]. apply bytes_ok_app. now split. }
  assert (Lpre : length pre = 55%nat) by (unfold pre, digest_info; rewrite !app_length, Lh; reflexivity).
  assert (Ot : bytes_ok (pre ++ repeat 0 111) = true).
  { apply bytes_ok_app. split; [exact Opre|apply bytes_ok_repeat0]. }
  pose proof (bval_bound _ Ot) as Bt. fold t in Bt. rewrite app_length, Lpre, repeat_length in Bt.
  assert (Et : t = bval pre * 256 ^ Z.of_nat 111).
  { unfold t. rewrite bval_app, bval_repeat0, repeat_length. lia. }
  assert (T0 : 0 < t).
  { destruct (hd_bval _ Ot ltac:(discriminate)) as [_ P]. fold t in P.
    pose proof (pow256_pos (length (pre ++ repeat 0 111) - 1)). lia. }
  rewrite pow256 in Bt, Et. change (8 * Z.of_nat (55 + 111)) with 1328 in Bt. change (8 * Z.of_nat 111) with 888 in Et.
  destruct (cube_between t 443 888) as (m & M0 & Ml & Mu); [|lia|lia|].
  { split; [exact T0|]. eapply Z.lt_le_trans; [apply Bt|]. apply Z.pow_le_mono_r; lia. }
  destruct (nat_bytes m M0) as (sig & Os & _ & _ & Vs).
  exists sig. split; [exact Os|].
  assert (M1329 : m ^ 3 < 2 ^ 1329).
  { replace (2 ^ 1329) with (2 ^ 1328 + 2 ^ 1328) by (replace 1329 with (1328 + 1) by lia; rewrite Z.pow_add_r by lia; lia).
    assert (2 ^ 888 <= 2 ^ 1328) by (apply Z.pow_le_mono_r; lia). lia. }
  assert (MN : m ^ 3 mod n = m ^ 3).
  { apply Z.mod_small. split; [lia|]. eapply Z.lt_le_trans; [exact M1329|].
    etransitivity; [|exact Hn]. apply Z.pow_le_mono_r; lia. }
  assert (N0 : 0 < n). { eapply Z.lt_le_trans; [|exact Hn]. apply Z.pow_pos_nonneg; lia. }
  split.
  - destruct (bytes_of_int_exists 111 (m ^ 3 - t)) as (g & Lg & Og & Vg).
    { rewrite pow256. change (8 * Z.of_nat 111) with 888. lia. }
    assert (Eo : bytes_of_int (m ^ 3) = pre ++ g).
    { rewrite <- (bytes_of_int_bval (pre ++ g)).
      - f_equal. rewrite bval_app, Lg, Vg, Et. rewrite pow256. change (8 * Z.of_nat 111) with 888. lia.
      - apply bytes_ok_app. now split.
      - intros _. discriminate. }
    unfold decrypt_signature_rsa, rsa_public_decrypt. rewrite pow_mod_spec by exact N0.
    rewrite int_of_bytes_bval, Vs. rewrite MN, Eo.
    unfold pre. rewrite <- !app_assoc. cbn [app skipn find_skip Z.eqb Pos.eqb andb Nat.add].
    now apply parse_signature_info.
  - intros h' (em & (k & -> & Hk & Lh' & Oh' & Lem) & E).
    rewrite !addr_val_bval, Vs, MN in E.
    assert (LN : 1400 <= Z.log2 n) by (rewrite <- (Z.log2_pow2 1400) by lia; now apply Z.log2_le_mono).
    assert (Lk : 174 <= Z.of_nat (length (repeat 255 k ++ 0 :: digest_info h'))).
    { unfold octets_of in Lem. cbn [length] in Lem. lia. }
    set (tl := repeat 255 k ++ 0 :: digest_info h') in *.
    cbn [bval] in E. rewrite Z.mul_0_l, Z.add_0_l, Z.mul_1_l in E.
    assert (bval tl >= 0).
    { assert (Otl : bytes_ok tl = true) by now apply block_ok. pose proof (bval_bound tl Otl). lia. }
    assert (2 ^ 1329 <= 256 ^ Z.of_nat (length tl)).
    { rewrite pow256. apply Z.pow_le_mono_r; lia. }
    lia.
Qed.

Section Oracles.
  Variable sha256 : bytes -> bytes.
  Variable marshal_set : list attr -> option bytes.
  Hypothesis sha_len : forall x, length (sha256 x) = 32%nat.

  (** Exactly what is accepted. *)
  Theorem validate_iff : forall c encap key,
    cms_validate sha256 marshal_set c encap key = Ret VOk <->
    exists si rest n p s, c_signers c = si :: rest /\ key = RSAPtr n (Zpos p) /\
      digest_of a_type a_values (si_attrs si) (sha256 encap) /\
      marshal_set (si_attrs si) = Some s /\
      parse_signature (rsa_public_decrypt n p (si_sig si)) = Some (sha256 (hashed s)).
  Proof.
    intros c encap key. unfold cms_validate. split.
    - destruct (c_signers c) as [|si rest]; [discriminate|].
      destruct (beq (sha256 encap) (message_digest (si_attrs si))) eqn:B; [|discriminate]. cbn [negb].
      apply beq_eq in B. unfold marshal_sad. destruct (marshal_set (si_attrs si)) as [s|] eqn:M; [|discriminate].
      destruct (_ <? 2)%nat; [discriminate|]. fold (hashed s).
      destruct key as [n e|n e|k]; try discriminate. destruct e as [|p|p]; try discriminate.
      unfold decrypt_signature_rsa. destruct (parse_signature _) as [d|] eqn:P; [|discriminate].
      destruct (beq (sha256 (hashed s)) d) eqn:B2; [|discriminate]. apply beq_eq in B2. subst d. intros _.
      exists si, rest, n, p, s. repeat split; auto.
      destruct (message_digest_spec (si_attrs si)) as [(v & D & E)|[_ E]].
      + rewrite B, E. exact D.
      + exfalso. pose proof (sha_len encap) as L. rewrite B, E in L. discriminate.
    - intros (si & rest & n & p & s & -> & -> & D & M & P).
      assert (E : message_digest (si_attrs si) = sha256 encap).
      { destruct (message_digest_spec (si_attrs si)) as [(v & D' & E)|[N _]].
        - rewrite E. eapply digest_of_fun; eauto.
        - destruct D as (pre & a & post & El & C & _). exfalso. apply (N a (sha256 encap)); [|exact C].
          rewrite El. apply in_app_iff. right. now left. }
      rewrite E, beq_refl. cbn [negb]. unfold marshal_sad. rewrite M.
      destruct (_ <? 2)%nat eqn:L.
      { exfalso. apply Nat.ltb_lt in L. cbn [length] in L. rewrite app_length in L.
        assert (length (encode_length (Z.of_nat (length s))) <> O).
        { unfold encode_length. destruct (128 <=? Z.of_nat (length s)); cbn; lia. }
        lia. }
      fold (hashed s). unfold decrypt_signature_rsa. rewrite P, beq_refl. reflexivity.
  Qed.

  (** Honest objects with short signed attributes are accepted. *)
  Theorem validate_complete : forall c si rest n p s encap,
    c_signers c = si :: rest -> 0 < n ->
    digest_of a_type a_values (si_attrs si) (sha256 encap) ->
    marshal_set (si_attrs si) = Some s -> Z.of_nat (length s) < 128 ->
    rsa_signs n (Zpos p) (si_sig si) (sha256 s) ->
    cms_validate sha256 marshal_set c encap (RSAPtr n (Zpos p)) = Ret VOk.
  Proof.
    intros c si rest n p s encap Hc Hn D M L R. apply validate_iff.
    exists si, rest, n, p, s. repeat split; auto. rewrite hashed_short by exact L.
    now apply rsa_signs_decrypt.
  Qed.

  (** With longer ones they are refused, unless SHA-256 collides on the set of
      attributes with and without some octets in front. *)
  Theorem validate_long_refused : forall c si rest n p s encap,
    c_signers c = si :: rest -> 0 < n ->
    marshal_set (si_attrs si) = Some s -> 128 <= Z.of_nat (length s) < 2 ^ 63 ->
    rsa_signs n (Zpos p) (si_sig si) (sha256 s) ->
    (forall l, l <> [] -> sha256 (l ++ s) <> sha256 s) ->
    cms_validate sha256 marshal_set c encap (RSAPtr n (Zpos p)) <> Ret VOk.
  Proof.
    intros c si rest n p s encap Hc Hn M L R NC H. apply validate_iff in H.
    destruct H as (si' & rest' & n' & p' & s' & Hc' & K & _ & M' & P).
    rewrite Hc in Hc'. injection Hc' as <- <-. injection K as <- <-. rewrite M in M'. injection M' as <-.
    destruct (hashed_long s L) as (l & Nl & E). rewrite E in P.
    rewrite (rsa_signs_decrypt n p (si_sig si) (sha256 s)) in P by auto.
    injection P as P. symmetry in P. now apply (NC l Nl).
  Qed.

  (** What validation guarantees about the signature block: the digest sits in
      a DigestInfo-like structure after some FF 00, or at the start. *)
  Theorem validate_sound : forall c encap key,
    cms_validate sha256 marshal_set c encap key = Ret VOk ->
    exists si rest n p s x, c_signers c = si :: rest /\ key = RSAPtr n (Zpos p) /\
      digest_of a_type a_values (si_attrs si) (sha256 encap) /\
      marshal_set (si_attrs si) = Some s /\
      (0 < n -> let out := bytes_of_int (addr_val (si_sig si) ^ Zpos p mod n) in
         out = x \/ exists pre, out = pre ++ 255 :: 0 :: x /\ (2 <= length pre)%nat) /\
      (0 < n -> exists l1 l2 l3 alg extra trail,
         x = 48 :: l1 ++ (48 :: l2 ++ alg ++ 4 :: l3 ++ sha256 (hashed s) ++ extra) ++ trail /\
         der_len (Z.of_nat (length alg)) l2 /\ der_len 32 l3).
  Proof.
    intros c encap key H. apply validate_iff in H.
    destruct H as (si & rest & n & p & s & Hc & K & D & M & P).
    exists si, rest, n, p, s, (rsa_public_decrypt n p (si_sig si)). repeat split; auto.
    - intros Hn. destruct (decrypt_shape n p (si_sig si) Hn) as [E|E]; [left; now symmetry|right; exact E].
    - intros Hn. destruct (parse_signature_inv _ _ (decrypt_ok n p (si_sig si) Hn) P) as (l1 & l2 & l3 & alg & ex & tr & E & D2 & D3).
      exists l1, l2, l3, alg, ex, tr. split; [exact E|]. split; [exact D2|]. rewrite sha_len in D3. exact D3.
  Qed.

  (** Any content and any attributes can be given a signature that validates
      under any key with exponent 3. *)
  Theorem validate_forge : forall certs alg attrs s encap n,
    2 ^ 1400 <= n -> (forall x, bytes_ok (sha256 x) = true) ->
    digest_of a_type a_values attrs (sha256 encap) -> marshal_set attrs = Some s ->
    exists sig,
      cms_validate sha256 marshal_set (mkCms certs [mkSigner attrs alg sig]) encap (RSAPtr n 3) = Ret VOk /\
      forall h, ~ rsa_signs n 3 sig h.
  Proof.
    intros certs alg attrs s encap n Hn Ok D M.
    destruct (forge n (sha256 (hashed s)) Hn (sha_len _) (Ok _)) as (sig & _ & E & N).
    exists sig. split; [|exact N]. apply validate_iff.
    exists (mkSigner attrs alg sig), [], n, 3%positive, s. repeat split; auto.
  Qed.

  Variable cert_alg : bytes -> option bytes.

  (** The strict match: the identifiers are the same octets and end with a
      NULL (tag 5). *)
  Theorem match_sound : forall c, check_signatures_match cert_alg c = Some true ->
    exists si rest rs r, c_signers c = si :: rest /\ cert_alg (c_certs c) = Some (si_alg si) /\
      parse_raws (si_alg si) = Some (rs ++ [r]) /\ r_tag r = 5.
  Proof.
    intros c H. unfold check_signatures_match in H.
    destruct (cert_alg (c_certs c)) as [ca|]; [|discriminate].
    destruct (c_signers c) as [|si rest]; [discriminate|].
    destruct (parse_raws ca) as [[|r0 rs]|] eqn:P; [discriminate| |discriminate].
    destruct (r_tag (last rs r0) =? 5) eqn:T; [|discriminate]. cbn [negb] in H.
    destruct (parse_raws (si_alg si)) eqn:P2; [|discriminate]. injection H as B. apply beq_eq in B. subst ca.
    exists si, rest, (removelast (r0 :: rs)), (last (r0 :: rs) r0).
    split; [reflexivity|]. split; [reflexivity|]. clear P2.
    rewrite <- app_removelast_last by discriminate. split; [exact P|].
    destruct rs as [|r1 rs]; cbn [last] in *; lia.
  Qed.

  (** After it, signature validation does not panic. *)
  Theorem match_no_panic : forall c encap key, check_signatures_match cert_alg c = Some true ->
    cms_validate sha256 marshal_set c encap key <> Panic.
  Proof.
    intros c encap key H. apply match_sound in H. destruct H as (si & rest & _ & _ & E & _).
    unfold cms_validate. rewrite E. destruct (negb _); [discriminate|].
    destruct (marshal_sad _ _); [|discriminate]. destruct (_ <? 2)%nat; [discriminate|].
    destruct key as [n e|n e|k]; try discriminate. destruct e as [|p|p]; try discriminate.
    destruct (decrypt_signature_rsa _ _ _); [|discriminate]. destruct (beq _ _); discriminate.
  Qed.
End Oracles.
