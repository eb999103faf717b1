(** From octets accepted by the decoders of IP address extensions and ROA
    contents back to the grammar of [IpExtSpec.v]. *)
From Coq Require Import Lia ZifyBool ZifyNat Bool.
From Verif.Model Require Import Base Str NetIP CertRes Roa Ber Asn1 GoTime Der Tal Cms Validator ObjDer.
From Verif.Spec Require Import Addr Resources Bits Canon BerSpec IpExtSpec.
From Verif.Proofs Require Import NetIPProofs DecodeProofs EncodeProofs BerProofs Asn1Proofs DerPrim DerProofs DerBytes ObjEncode ObjSign DerInside.
Ltac Zify.zify_post_hook ::= Z.div_mod_to_equations.

(** ** One value *)
Definition raw_hdr (r : raw) : hdr := mkH (r_class r) (r_cons r) (r_tag r) (Z.of_nat (length (r_bytes r))).

Lemma field_raw : forall t p l, p_explicit p = false ->
  parse_field t p l =
  match l with
  | [] => match default_value p t with Some v => Some (v, l) | None => None end
  | _ =>
    match parse_header l with
    | None => None
    | Some (h, _) =>
      if matches p t h then
        match parse_raw l with
        | None => None
        | Some (r, rest) => opt_map (fun v => (v, rest)) (decode_inner t p h (r_bytes r) (r_full r))
        end
      else match default_value p t with Some v => Some (v, l) | None => None end
    end
  end.
Proof.
  intros t p l Hp. rewrite parse_field_eq. destruct l as [|b r]; [reflexivity|]. cbv zeta.
  unfold parse_header, parse_raw.
  destruct (if b mod 32 =? 31 then _ else _) as [[tag r1]|]; [|reflexivity].
  destruct (parse_length r1) as [[n r2]|]; [|reflexivity].
  unfold open_explicit. rewrite Hp. destruct (matches p t _); cbn [negb]; [|reflexivity]. cbn [h_len].
  destruct (Z.of_nat (length r2) <? n); reflexivity.
Qed.

Lemma header_raw : forall l h s r rest, parse_header l = Some (h, s) -> parse_raw l = Some (r, rest) ->
  h_class h = r_class r /\ h_cons h = r_cons r /\ h_tag h = r_tag r.
Proof.
  intros l h s r rest. unfold parse_header, parse_raw. destruct l as [|b l]; [discriminate|].
  destruct (if b mod 32 =? 31 then _ else _) as [[tag r1]|]; [|discriminate].
  destruct (parse_length r1) as [[n r2]|]; [|discriminate].
  destruct (Z.of_nat (length r2) <? n); [discriminate|]. intros H G. injection H as <- _. injection G as <- _. auto.
Qed.

Lemma plain_matches : forall t u k h, universal t = Some (u, k) -> t <> GString -> t <> GTime ->
  forall p, p_explicit p = false -> p_tag p = None -> p_set p = false ->
  matches p t h = (h_class h =? 0) && (h_tag h =? u) && Bool.eqb (h_cons h) k.
Proof.
  intros t u k h U S T p E G Q. unfold matches, wire_tag. rewrite G, Q, U.
  destruct t; try congruence; cbn [universal] in *; try discriminate; reflexivity.
Qed.

(** A value of class 0: its identifier octet. *)
Lemma ident : forall b u k, 0 <= b < 256 -> b / 64 = 0 -> b mod 32 = u -> negb (b / 32 mod 2 =? 0) = k ->
  b = u + 32 * Z.b2z k.
Proof. intros b u [|] B C M K; cbn [Z.b2z]; lia. Qed.

Definition plain (p : params) : Prop := p_explicit p = false /\ p_tag p = None /\ p_set p = false.

Lemma plain_inv : forall t u k p l v r, universal t = Some (u, k) -> t <> GString -> t <> GTime -> plain p ->
  u < 31 -> bytes_ok l = true -> parse_field t p l = Some (v, r) ->
  (exists e c h full, l = e ++ r /\ coded (u + 32 * Z.b2z k) c e /\ Z.of_nat (length c) < 2 ^ 31 /\
     decode_inner t p h c full = Some v) \/
  (default_value p t = Some v /\ r = l /\ hd 0 l <> u + 32 * Z.b2z k \/
   default_value p t = Some v /\ r = l /\ l = []).
Proof.
  intros t u k p l v r U S T (P1 & P2 & P3) Hu O H. rewrite field_raw in H by exact P1.
  destruct l as [|b l']; [right; right; destruct (default_value p t) as [w|]; [|discriminate];
    apply some_eq in H; assert (w = v) by congruence; assert (r = []) by congruence; subst; auto|].
  set (l := b :: l') in *.
  destruct (parse_header l) as [[h s]|] eqn:E; [|discriminate].
  rewrite (plain_matches t u k h U S T p P1 P2 P3) in H.
  destruct ((h_class h =? 0) && (h_tag h =? u) && Bool.eqb (h_cons h) k) eqn:M.
  - destruct (parse_raw l) as [[x rest]|] eqn:R; [|discriminate].
    destruct (header_raw _ _ _ _ _ E R) as (C1 & C2 & C3).
    destruct (decode_inner t p h (r_bytes x) (r_full x)) as [w|] eqn:D; [|discriminate]. cbn [opt_map] in H.
    assert (w = v) by congruence. assert (rest = r) by congruence. subst w rest.
    apply andb_true_iff in M as [M M3]. apply andb_true_iff in M as [M1 M2]. apply Bool.eqb_prop in M3.
    destruct (parse_raw_inv _ _ _ O R) as (tg & lo & Ed & Ef & Hl & Hc & Ht & K1 & K2 & K3 & K4).
    destruct tg as [|y tg]; [congruence|]. cbn [hd] in *.
    assert (Oy : 0 <= y < 256) by (rewrite Ed in O; cbn [app] in O; apply bytes_ok_cons in O; tauto).
    destruct (Z.eq_dec (y mod 32) 31) as [X|X]; [apply K4 in X; lia|].
    apply K3 in X. destruct X as [X Y]. injection X as ->.
    left. exists ((y :: lo) ++ r_bytes x), (r_bytes x), h, (r_full x).
    split; [rewrite Ed; cbn [app]; now rewrite <- app_assoc|].
    split; [|auto]. exists lo. split; [exact Hl|]. cbn [app]. f_equal.
    apply ident; [exact Oy|lia|lia|congruence].
  - right. left. destruct (default_value p t) as [w|]; [|discriminate]. apply some_eq in H.
    assert (w = v) by congruence. assert (r = l) by congruence. subst w r. split; [reflexivity|]. split; [reflexivity|].
    cbn [l hd]. intros X.
    unfold parse_header, l in E. apply bytes_ok_cons in O as [Ob O].
    assert (B31 : b mod 32 = u) by (destruct k; cbn [Z.b2z] in X; subst b; destruct t; cbn in U; try discriminate U; injection U as <-; reflexivity || discriminate).
    destruct (b mod 32 =? 31) eqn:E31; [lia|].
    destruct (parse_length l') as [[n r2]|]; [|discriminate]. apply some_eq in E. assert (h = mkH (b / 64) (negb (b / 32 mod 2 =? 0)) (b mod 32) n) by congruence.
    subst h. cbn [h_class h_cons h_tag] in M.
    apply andb_false_iff in M as [M|M]; [apply andb_false_iff in M as [M|M]|].
    + destruct t; cbn in U; try discriminate U; injection U as <- <-; subst b; cbn in M; discriminate.
    + lia.
    + apply Bool.eqb_false_iff in M. apply M.
      destruct t; cbn in U; try discriminate U; injection U as <- <-; subst b; reflexivity.
Qed.

Lemma p0_inv : forall t u k l v r, universal t = Some (u, k) -> t <> GString -> t <> GTime ->
  u < 31 -> bytes_ok l = true -> parse_field t p0 l = Some (v, r) ->
  exists e c h full, l = e ++ r /\ coded (u + 32 * Z.b2z k) c e /\ Z.of_nat (length c) < 2 ^ 31 /\ decode_inner t p0 h c full = Some v.
Proof.
  intros t u k l v r U S T B O H.
  destruct (plain_inv t u k p0 l v r U S T ltac:(repeat split) B O H) as [X|[(X & _)|(X & _)]]; [exact X|discriminate|discriminate].
Qed.

Lemma coded_ok : forall id c e, coded id c e -> bytes_ok e = true -> bytes_ok c = true.
Proof.
  intros id c e (l & _ & ->) O. apply bytes_ok_cons in O as [_ O]. now apply bytes_ok_app in O as [_ O].
Qed.

(** Octets read again *)
Lemma reread : forall d r rest id c e rest', bytes_ok d = true -> parse_raw d = Some (r, rest) ->
  r_full r = e ++ rest' -> coded id c e -> id mod 32 <> 31 -> Z.of_nat (length c) < 2 ^ 31 -> rest' = [] /\ r_bytes r = c.
Proof.
  intros d r rest id c e rest' O R F (l & Hl & ->) N Lc.
  destruct (parse_raw_inv _ _ _ O R) as (tg & lo & Ed & Ef & Hlo & Hc & Ht & K1 & K2 & K3 & K4).
  destruct tg as [|y tg]; [congruence|]. cbn [hd] in *. rewrite Ef in F.
  cbn [app] in F. injection F as Y F. subst y. destruct (K3 N) as [X _]. injection X as ->. cbn [app] in F.
  rewrite <- app_assoc in F.
  pose proof (parse_length_read _ lo (r_bytes r) Hlo Hc) as P1.
  pose proof (parse_length_read _ l (c ++ rest') Hl Lc) as P2.
  rewrite F, P2 in P1. apply some_eq in P1. pose proof (f_equal fst P1) as L1. pose proof (f_equal snd P1) as E. cbn [fst snd] in L1, E.
  assert (rest' = []). { destruct rest'; [reflexivity|]. apply (f_equal (@length Z)) in E. rewrite app_length in E. cbn [length] in E. lia. }
  subst rest'. rewrite app_nil_r in E. auto.
Qed.

(** ** Sequences *)
Lemma many_split : forall {A} (f : bytes -> option (A * bytes)) (P : bytes -> A -> Prop),
  (forall l a r, bytes_ok l = true -> f l = Some (a, r) -> exists e, l = e ++ r /\ P e a) ->
  forall k l vs, bytes_ok l = true -> many f k l = Some vs -> exists es, l = concat es /\ Forall2 P es vs.
Proof.
  intros A f P HP. induction k as [|k IH]; intros l vs O H.
  - destruct l; [|discriminate]. injection H as <-. exists []. split; [reflexivity|constructor].
  - destruct l as [|b l]; [injection H as <-; exists []; split; [reflexivity|constructor]|].
    cbn [many] in H. destruct (f (b :: l)) as [[a r]|] eqn:E; [|discriminate].
    destruct (many f k r) as [ws|] eqn:M; [|discriminate]. cbn [opt_map] in H. injection H as <-.
    destruct (HP _ _ _ O E) as (e & L & Q).
    assert (Or : bytes_ok r = true) by (rewrite L in O; now apply bytes_ok_app in O).
    destruct (IH r ws Or M) as (es & -> & F). exists (e :: es). split; [exact L|now constructor].
Qed.

Lemma map_opt_forall2 : forall {A B} (f : A -> option B) l l', map_opt f l = Some l' -> Forall2 (fun a b => f a = Some b) l l'.
Proof.
  intros A B f. induction l as [|a l IH]; intros l' H; cbn [map_opt] in H; [injection H as <-; constructor|].
  destruct (f a) as [b|] eqn:E; [|discriminate]. destruct (map_opt f l) as [bs|] eqn:M; [|discriminate].
  cbn [opt_map] in H. injection H as <-. constructor; auto.
Qed.

Lemma forall2_compose : forall {A B C} (P : A -> B -> Prop) (Q : B -> C -> Prop) l m n,
  Forall2 P l m -> Forall2 Q m n -> Forall2 (fun a c => exists b, P a b /\ Q b c) l n.
Proof.
  intros A B C P Q l m n H. revert n. induction H; intros n K; inversion K; subst; constructor; eauto.
Qed.

Lemma forall2_imp : forall {A B} (P Q : A -> B -> Prop) l m, (forall a b, P a b -> Q a b) -> Forall2 P l m -> Forall2 Q l m.
Proof. intros A B P Q l m H F. induction F; constructor; auto. Qed.

(** A slice of values of type [t'], each of them read by [f]. *)
Lemma slice_inv : forall {A} t' (f : govalue -> option A) (P : bytes -> A -> Prop),
  (forall l v a r, bytes_ok l = true -> parse_field t' p0 l = Some (v, r) -> f v = Some a -> exists e, l = e ++ r /\ P e a) ->
  forall d vs, bytes_ok d = true -> read_as (GSlice t') (slice_of f) d = Some vs ->
  exists e rest es, d = e ++ rest /\ coded 48 (concat es) e /\ Z.of_nat (length (concat es)) < 2 ^ 31 /\ Forall2 P es vs.
Proof.
  intros A t' f P HP d vs O H. unfold read_as, unmarshal in H.
  destruct (parse_field (GSlice t') p0 d) as [[v rest]|] eqn:E; [|discriminate].
  destruct (p0_inv (GSlice t') 16 true d v rest eq_refl ltac:(discriminate) ltac:(discriminate) ltac:(lia) O E)
    as (e & c & h & full & -> & C & Lc & D).
  apply bytes_ok_app in O as [O _]. pose proof (coded_ok _ _ _ C O) as Oc.
  cbn [decode_inner] in D. destruct (many (parse_field t' p0) (length c) c) as [ws|] eqn:M; [|discriminate].
  cbn [opt_map] in D. injection D as <-. cbn [slice_of] in H.
  pose proof (map_opt_forall2 _ _ _ H) as F.
  destruct (many_split (parse_field t' p0) (fun e v => exists r, bytes_ok (e ++ r) = true /\ parse_field t' p0 (e ++ r) = Some (v, r)))
    with (k := length c) (l := c) (vs := ws) as (es & -> & F2); [|exact Oc|exact M|].
  { intros l a r Ol Hl. destruct (parse_good t' p0 l a r Hl) as (_ & (q & ->) & _). exists q. split; [reflexivity|]. exists r. auto. }
  exists e, rest, es. split; [reflexivity|]. split; [exact C|]. split; [exact Lc|].
  refine (forall2_imp _ _ _ _ _ (forall2_compose _ _ _ _ _ F2 F)).
  intros e' a (v & (r & Oe & Pe) & Fv). destruct (HP _ _ _ _ Oe Pe Fv) as (e2 & X & Q).
  apply app_inv_tail in X. now subst e2.
Qed.

(** ** Bit strings, integers *)
Lemma bits_inv : forall p l v r, plain p -> p_opt p = false -> bytes_ok l = true -> parse_field GBits p l = Some (v, r) ->
  exists e c b, l = e ++ r /\ v = VBits b /\ coded 3 c e /\ Z.of_nat (length c) < 2 ^ 31 /\ bits_coded c b.
Proof.
  intros p l v r Pp Po O H.
  destruct (plain_inv GBits 3 false p l v r eq_refl ltac:(discriminate) ltac:(discriminate) Pp ltac:(lia) O H)
    as [(e & c & h & full & -> & C & Lc & D)|[(X & _)|(X & _)]];
    [|unfold default_value in X; rewrite Po in X; discriminate|unfold default_value in X; rewrite Po in X; discriminate].
  apply bytes_ok_app in O as [O _]. pose proof (coded_ok _ _ _ C O) as Oc.
  cbn [decode_inner] in D. destruct (parse_bitstring c) as [b|] eqn:E; [|discriminate]. cbn [opt_map] in D.
  injection D as <-. exists e, c, b. split; [reflexivity|]. split; [reflexivity|]. split; [exact C|]. split; [exact Lc|].
  pose proof (parse_bitstring_fit _ _ Oc E) as W. unfold parse_bitstring in E.
  destruct c as [|u c]; [discriminate|]. destruct (_ || _) eqn:K in E; [discriminate|]. apply some_eq in E. subst b.
  exists u. cbn [bs_bytes bs_len]. apply bytes_ok_cons in Oc as [Ou Oc].
  split; [reflexivity|]. split; [lia|]. split; [reflexivity|exact W].
Qed.

Lemma addr_cons : forall c b, addr_val (b :: c) = b * 256 ^ Z.of_nat (length c) + addr_val c.
Proof.
  assert (F : forall c a, fold_left (fun acc b => acc * 256 + b) c a = a * 256 ^ Z.of_nat (length c) + addr_val c).
  { induction c as [|x c IH]; intros a; [unfold addr_val; cbn; lia|].
    unfold addr_val. cbn [fold_left length]. rewrite IH, (IH (0 * 256 + x)), pow256S. lia. }
  intros c b. unfold addr_val at 1. cbn [fold_left]. rewrite F. lia.
Qed.
Lemma addr_bound : forall c, bytes_ok c = true -> 0 <= addr_val c < 256 ^ Z.of_nat (length c).
Proof.
  induction c as [|b c IH]; intros O; [cbv; split; [discriminate|reflexivity]|].
  apply bytes_ok_cons in O as [Ob O]. specialize (IH O). rewrite addr_cons. cbn [length]. rewrite pow256S. nia.
Qed.

(** What fits in [c] octets, and what needs them all. *)
Lemma complement_fits : forall c, c <> [] -> bytes_ok c = true -> fits_in (length c) (complement c).
Proof.
  intros [|b c] N O; [congruence|]. unfold complement, fits_in. cbn [hd length]. rewrite half_256, addr_cons, pow256S.
  apply bytes_ok_cons in O as [Ob O]. pose proof (addr_bound c O) as B. set (P := 256 ^ Z.of_nat (length c)) in *.
  clearbody P. destruct (Z.leb_spec 128 b); nia.
Qed.
Lemma complement_full : forall b b' c, bytes_ok (b :: b' :: c) = true -> check_integer (b :: b' :: c) = true ->
  ~ fits_in (length (b' :: c)) (complement (b :: b' :: c)).
Proof.
  intros b b' c O C. unfold complement, fits_in. cbn [hd length]. rewrite half_256, !addr_cons. cbn [length]. rewrite !pow256S.
  apply bytes_ok_cons in O as [Ob O]. apply bytes_ok_cons in O as [Ob' O]. pose proof (addr_bound c O) as B.
  set (P := 256 ^ Z.of_nat (length c)) in *. clearbody P. cbn [check_integer] in C.
  destruct (Z.leb_spec 128 b).
  - assert (b <= 254 \/ b' < 128) by lia. nia.
  - assert (1 <= b \/ 128 <= b') by lia. nia.
Qed.
Lemma fits_mono : forall j k n, (1 <= j <= k)%nat -> fits_in j n -> fits_in k n.
Proof.
  intros j k n L F. unfold fits_in in *.
  assert (2 ^ (8 * Z.of_nat j - 1) <= 2 ^ (8 * Z.of_nat k - 1)) by (apply Z.pow_le_mono_r; lia). lia.
Qed.

Lemma signed_complement : forall c, c <> [] -> signed_value c = complement c.
Proof.
  intros [|b c] N; [congruence|]. unfold signed_value, complement, be_value. cbn [hd].
  change (fold_left (fun acc b => acc * 256 + b) (b :: c) 0) with (addr_val (b :: c)).
  destruct (128 <=? b); lia.
Qed.

Lemma checked_coded : forall c, bytes_ok c = true -> check_integer c = true -> number_coded c (signed_value c).
Proof.
  intros c O C. assert (N : c <> []) by (intros ->; discriminate).
  rewrite (signed_complement c N). split; [exact N|]. split; [reflexivity|].
  intros c' N' O' E. destruct (le_lt_dec (length c) (length c')) as [L|L]; [exact L|]. exfalso.
  destruct c as [|b [|b' c]]; [congruence|destruct c'; [congruence|cbn in L; lia]|].
  apply (complement_full b b' c O C). rewrite <- E. apply (fits_mono (length c')); [|now apply complement_fits].
  destruct c'; [congruence|]. cbn [length] in *. lia.
Qed.

Lemma int64_coded : forall c n, bytes_ok c = true -> parse_int64 c = Some n -> int_coded c n.
Proof.
  intros c n O H. unfold parse_int64 in H. destruct (check_integer c && _) eqn:E; [|discriminate].
  apply andb_prop in E as [E L].
  apply some_eq in H. subst n. split; [now apply checked_coded|lia].
Qed.

Lemma int_inv : forall l v r, bytes_ok l = true -> parse_field GInt p0 l = Some (v, r) ->
  exists e c n, l = e ++ r /\ v = VInt n /\ coded 2 c e /\ int_coded c n.
Proof.
  intros l v r O H.
  destruct (p0_inv GInt 2 false l v r eq_refl ltac:(discriminate) ltac:(discriminate) ltac:(lia) O H)
    as (e & c & h & full & -> & C & Lc & D).
  cbn [decode_inner] in D. destruct (parse_int64 c) as [n|] eqn:E; [|discriminate]. cbn [opt_map] in D. injection D as <-.
  exists e, c, n. split; [reflexivity|]. split; [reflexivity|]. split; [exact C|apply int64_coded; [exact (coded_ok _ _ _ C (proj1 (proj1 (bytes_ok_app _ _) O)))|exact E]].
Qed.

Lemma octets_inv : forall l v r, bytes_ok l = true -> parse_field GOctets p0 l = Some (v, r) ->
  exists e c, l = e ++ r /\ v = VOctets c /\ coded 4 c e.
Proof.
  intros l v r O H.
  destruct (p0_inv GOctets 4 false l v r eq_refl ltac:(discriminate) ltac:(discriminate) ltac:(lia) O H)
    as (e & c & h & full & -> & C & Lc & D). cbn [decode_inner] in D. injection D as <-. exists e, c. auto.
Qed.

Lemma maxlen_inv : forall l v r, bytes_ok l = true -> parse_field GInt p_minus1 l = Some (v, r) ->
  (exists e c n, l = e ++ r /\ v = VInt n /\ coded 2 c e /\ int_coded c n) \/ (v = VInt (-1) /\ r = l /\ hd 0 l <> 2).
Proof.
  intros l v r O H.
  destruct (plain_inv GInt 2 false p_minus1 l v r eq_refl ltac:(discriminate) ltac:(discriminate) ltac:(repeat split) ltac:(lia) O H)
    as [(e & c & h & full & -> & C & Lc & D)|[(X & Y & Z)|(X & Y & Z)]].
  - left. cbn [decode_inner] in D. destruct (parse_int64 c) as [n|] eqn:E; [|discriminate]. cbn [opt_map] in D. injection D as <-.
    exists e, c, n. split; [reflexivity|]. split; [reflexivity|]. split; [exact C|apply int64_coded; [exact (coded_ok _ _ _ C (proj1 (proj1 (bytes_ok_app _ _) O)))|exact E]].
  - right. injection X as <-. auto.
  - right. injection X as <-. subst. split; [reflexivity|]. split; [reflexivity|]. cbn. lia.
Qed.

(** A struct *)
Lemma struct_inv : forall fs l v r, bytes_ok l = true -> parse_field (GStruct false fs) p0 l = Some (v, r) ->
  exists e c vs, l = e ++ r /\ v = VStruct [] vs /\ coded 48 c e /\ Z.of_nat (length c) < 2 ^ 31 /\ bytes_ok c = true /\
    parse_fields fs c = Some vs.
Proof.
  intros fs l v r O H.
  destruct (p0_inv (GStruct false fs) 16 true l v r eq_refl ltac:(discriminate) ltac:(discriminate) ltac:(lia) O H)
    as (e & c & h & full & -> & C & Lc & D).
  apply bytes_ok_app in O as [O _]. pose proof (coded_ok _ _ _ C O) as Oc.
  cbn [decode_inner] in D. destruct (parse_fields fs c) as [vs|] eqn:E; [|discriminate]. cbn [opt_map] in D. injection D as <-.
  exists e, c, vs. auto 10.
Qed.
Lemma fields_cons : forall p t fs l vs, parse_fields ((p, t) :: fs) l = Some vs ->
  exists v r ws, parse_field t p l = Some (v, r) /\ parse_fields fs r = Some ws /\ vs = v :: ws.
Proof.
  intros p t fs l vs H. cbn [parse_fields] in H. destruct (parse_field t p l) as [[v r]|] eqn:E; [|discriminate].
  destruct (parse_fields fs r) as [ws|] eqn:F; [|discriminate]. cbn [opt_map] in H. injection H as <-. eauto 10.
Qed.

(** ** Meanings *)
Lemma family_size_iff : forall fam n, family_size fam = Some n <-> fam_octets fam n.
Proof.
  intros fam n. split; [|apply fam_octets_size]. unfold family_size. intros H.
  destruct fam as [|a [|b r]]; try discriminate. destruct (b =? 1) eqn:E1.
  - injection H as <-. left. split; [reflexivity|]. exists a, r. repeat f_equal. lia.
  - destruct (b =? 2) eqn:E2; [|discriminate]. injection H as <-. right. split; [reflexivity|]. exists a, r. repeat f_equal. lia.
Qed.
Lemma family_none : forall fam, family_size fam = None -> forall n, ~ fam_octets fam n.
Proof. intros fam H n F. apply family_size_iff in F. congruence. Qed.

Lemma copy_into_long : forall n src, (n <= length src)%nat -> copy_into n src = firstn n src.
Proof.
  intros n src H. unfold copy_into. rewrite firstn_app. replace (n - length src)%nat with 0%nat by lia.
  now rewrite firstn_O, app_nil_r.
Qed.

Lemma long_bits : forall b n, wf_bits b -> 8 * Z.of_nat n < bs_len b -> (n <= length (bs_bytes b))%nat.
Proof. intros b n (_ & _ & H & _) K. lia. Qed.

Lemma mask_number : forall p n, (n = 4 \/ n = 16)%nat -> 0 <= p <= 8 * Z.of_nat n ->
  addr_val (cidr_mask p (8 * Z.of_nat n)) = 2 ^ (8 * Z.of_nat n) - 2 ^ (8 * Z.of_nat n - p).
Proof.
  assert (G : forall m w, forallb (fun k => addr_val (cidr_mask (Z.of_nat k) w) =? 2 ^ w - 2 ^ (w - Z.of_nat k)) (seq 0 m) = true ->
    forall p, 0 <= p < Z.of_nat m -> addr_val (cidr_mask p w) = 2 ^ w - 2 ^ (w - p)).
  { intros m w H p Hp. rewrite forallb_forall in H. specialize (H (Z.to_nat p)). rewrite Z2Nat.id in H by lia.
    apply Z.eqb_eq, H, in_seq. lia. }
  intros p n [-> | ->] Hp.
  - apply (G 33%nat); [vm_compute; reflexivity|lia].
  - apply (G 129%nat); [vm_compute; reflexivity|lia].
Qed.

Lemma mask_bytes : forall p n, (n = 4 \/ n = 16)%nat -> 0 <= p <= 8 * Z.of_nat n ->
  bytes_ok (cidr_mask p (8 * Z.of_nat n)) = true.
Proof.
  assert (G : forall m w, forallb (fun k => bytes_ok (cidr_mask (Z.of_nat k) w)) (seq 0 m) = true ->
    forall p, 0 <= p < Z.of_nat m -> bytes_ok (cidr_mask p w) = true).
  { intros m w H p Hp. rewrite forallb_forall in H. specialize (H (Z.to_nat p)). rewrite Z2Nat.id in H by lia.
    apply H, in_seq. lia. }
  intros p n [-> | ->] Hp.
  - apply (G 33%nat); [vm_compute; reflexivity|lia].
  - apply (G 129%nat); [vm_compute; reflexivity|lia].
Qed.

Lemma prefix_meaning : forall fam b, wf_bits b -> prefix_of fam b (decode_ip fam b).
Proof.
  intros fam b W. destruct (family_size fam) as [n|] eqn:E.
  - pose proof (proj1 (family_size_iff _ _) E) as F. destruct (Z.le_gt_cases (bs_len b) (8 * Z.of_nat n)) as [L|L].
    + destruct (decode_ip_spec fam n b F W L) as (net & -> & L1 & O1 & M & V).
      pose proof (fam_len _ _ F) as N. assert (0 <= bs_len b) by (destruct W as (_ & ? & _); assumption).
      apply (pre_fits fam b n net); auto.
      * rewrite M. apply cidr_mask_len; [exact N|lia].
      * rewrite M. apply mask_bytes; [exact N|lia].
      * rewrite M. apply mask_number; [exact N|lia].
    + destruct (decode_ip_too_long fam n b F L) as (net & D & M). rewrite D.
      unfold decode_ip in D. rewrite E in D. apply some_eq in D. subst net. cbn [nip nmask] in *.
      pose proof (long_bits b n W L).
      apply (pre_long fam b n); auto; cbn [nip]; [now apply copy_into_long|apply copy_into_length].
  - unfold decode_ip. rewrite E. apply pre_other. now apply family_none.
Qed.

(** The meaning of a prefix that fits is an interval. *)
Lemma fam_unique : forall fam n m, fam_octets fam n -> fam_octets fam m -> n = m.
Proof. intros fam n m H K. apply fam_octets_size in H, K. congruence. Qed.

Lemma prefix_denotes : forall fam n b net, prefix_of fam b (Some net) -> wf_bits b ->
  fam_octets fam n -> bs_len b <= 8 * Z.of_nat n ->
  (n = 16%nat -> ~ v4mapped (bits_val b * 2 ^ (128 - bs_len b))) ->
  denotes (INet (Some net)) n (bits_val b * 2 ^ (8 * Z.of_nat n - bs_len b))
    ((bits_val b + 1) * 2 ^ (8 * Z.of_nat n - bs_len b) - 1).
Proof.
  intros fam n b net H W F L N. pose proof (fam_len _ _ F) as Fn.
  inversion H as [m net' Fm Lm H1 H2 H3 H4 H5 H6 E|m net' Fm Lm _ _ _ E|]; subst net'.
  - pose proof (fam_unique _ _ _ F Fm) as <-. pose proof (decode_ip_denotes fam n b F W L N) as D.
    destruct (decode_ip_spec fam n b F W L) as (net' & E1 & L1 & O1 & M & V). rewrite E1 in D.
    assert (0 <= bs_len b) by (destruct W as (_ & ? & _); assumption).
    assert (nip net' = nip net) by (apply bval_inj; auto; [congruence|rewrite <- !addr_val_bval; congruence]).
    assert (nmask net' = nmask net).
    { rewrite M. apply bval_inj; auto.
      - rewrite cidr_mask_len by (auto; lia). congruence.
      - apply mask_bytes; auto; lia.
      - rewrite <- !addr_val_bval. rewrite mask_number by (auto; lia). congruence. }
    destruct net' as [i1 m1], net as [i2 m2]. cbn [nip nmask] in *. subst i1 m2. subst m1. exact D.
  - pose proof (fam_unique _ _ _ F Fm) as <-. lia.
Qed.

Lemma range_denotes : forall fam n b1 b2 lo hi, low_end fam b1 lo -> high_end fam b2 hi ->
  fam_octets fam n -> bs_len b1 <= 8 * Z.of_nat n -> bs_len b2 <= 8 * Z.of_nat n ->
  (n = 16%nat -> ~ v4mapped (addr_val lo) /\ ~ v4mapped (addr_val hi)) ->
  denotes (IRange lo hi) n (bits_val b1 * 2 ^ (8 * Z.of_nat n - bs_len b1))
    ((bits_val b2 + 1) * 2 ^ (8 * Z.of_nat n - bs_len b2) - 1).
Proof.
  intros fam n b1 b2 lo hi H K F L1 L2 N. pose proof (fam_len _ _ F) as Fn.
  inversion H as [m a Fm Lm H1 H2 H3 E|m Fm Lm G E|X G]; [|pose proof (fam_unique _ _ _ F Fm) as <-; lia|now apply X in F].
  pose proof (fam_unique _ _ _ F Fm) as <-. subst a.
  inversion K as [m a Fm' Lm' K1 K2 K3 E|m Fm' Lm' G E|m Fm' Lm' E|X G];
    [|pose proof (fam_unique _ _ _ F Fm') as <-; lia|pose proof (fam_unique _ _ _ F Fm') as <-; lia|now apply X in F].
  pose proof (fam_unique _ _ _ F Fm') as <-. subst a. rewrite <- H3, <- K3. rewrite <- H1. apply den_range; [| |lia].
  - split; [assumption|]. split; [lia|]. intros E. apply N. lia.
  - split; [assumption|]. split; [lia|]. intros E. apply N. lia.
Qed.

Lemma low_meaning : forall fam b, wf_bits b -> low_end fam b (odefault [] (decode_ip_minmax fam b false)).
Proof.
  intros fam b W. destruct (family_size fam) as [n|] eqn:E.
  - pose proof (proj1 (family_size_iff _ _) E) as F. destruct (Z.le_gt_cases (bs_len b) (8 * Z.of_nat n)) as [L|L].
    + destruct (decode_min_spec fam n b F W L) as (a & -> & L1 & O1 & V). cbn [odefault]. now apply (low_fits fam b n a).
    + unfold decode_ip_minmax. rewrite E. cbn [odefault]. pose proof (long_bits b n W L). rewrite copy_into_long by assumption.
      now apply low_long.
  - unfold decode_ip_minmax. rewrite E. apply low_other. now apply family_none.
Qed.

Lemma fill_ones_none : forall l i bl, i + Z.of_nat (length l) <= bl / 8 -> fill_ones i bl l = l.
Proof.
  induction l as [|x l IH]; intros i bl H; [reflexivity|]. cbn [fill_ones length] in *.
  destruct (bl / 8 <? i) eqn:E; [lia|]. destruct (i =? bl / 8) eqn:E2; [lia|]. rewrite IH by lia. reflexivity.
Qed.

Lemma high_meaning : forall fam b, wf_bits b -> high_end fam b (odefault [] (decode_ip_minmax fam b true)).
Proof.
  intros fam b W. destruct (family_size fam) as [n|] eqn:E.
  - pose proof (proj1 (family_size_iff _ _) E) as F. destruct (Z.le_gt_cases (bs_len b) (8 * Z.of_nat n)) as [L|L].
    + destruct (decode_max_spec fam n b F W L) as (a & -> & L1 & O1 & V). cbn [odefault]. now apply (high_fits fam b n a).
    + unfold decode_ip_minmax. rewrite E. cbn [odefault]. pose proof (long_bits b n W L).
      destruct (Z.of_nat n <? bs_len b / 8) eqn:K; cbn [odefault].
      * apply (high_longer fam b n); [exact F|lia].
      * rewrite copy_into_long by assumption. rewrite fill_ones_none by (rewrite firstn_length; lia).
        apply high_long; [exact F|lia|assumption].
  - unfold decode_ip_minmax. rewrite E. apply high_other. now apply family_none.
Qed.

Lemma marker_meaning : forall fam, bytes_ok fam = true -> marker fam (null_family fam).
Proof.
  intros fam O. unfold null_family. destruct fam as [|a [|b [|c r]]];
    try (apply marker_none; intros; discriminate).
  destruct (b =? 1) eqn:E1; [apply (marker_family _ a 1); [auto|repeat f_equal; lia]|].
  destruct (b =? 2) eqn:E2; [apply (marker_family _ a 2); [auto|repeat f_equal; lia]|].
  apply marker_none. intros x f X. injection X as _ <-. lia.
Qed.

(** ** IP address extensions *)
Lemma raw_any : forall d r rest, bytes_ok d = true -> parse_raw d = Some (r, rest) ->
  exists tg, d = r_full r ++ rest /\ any_value tg (r_bytes r) (r_full r) /\
    (forall k, k <> 31 -> r_tag r = k -> hd 0 tg mod 32 = k \/ 31 <= k) /\
    (forall k, 0 <= k < 31 -> r_tag r <> k -> hd 0 tg mod 32 <> k).
Proof.
  intros d r rest O R. destruct (parse_raw_inv _ _ _ O R) as (tg & lo & Ed & Ef & Hlo & Hc & Ht & K1 & K2 & K3 & K4).
  exists tg. split; [rewrite Ef, Ed; now rewrite <- !app_assoc|].
  split; [exists lo; split; [exact Hlo|]; split; [exact Ef|]; split; [exact Ht|intros X; now apply K3]|].
  split.
  - intros k N E. destruct (Z.eq_dec (hd 0 tg mod 32) 31) as [X|X]; [apply K4 in X; lia|]. apply K3 in X. lia.
  - intros k N E X. assert (hd 0 tg mod 32 <> 31) as Y by lia. apply K3 in Y. lia.
Qed.

Lemma elem_inv : forall d r rest fam l, bytes_ok d = true -> parse_raw d = Some (r, rest) ->
  decode_ranges fam [ip_elem r] = (l, true) -> element fam (r_full r) l.
Proof.
  intros d r rest fam l O R H.
  destruct (raw_any _ _ _ O R) as (tg & Ed & A & T1 & T2).
  assert (Of : bytes_ok (r_full r) = true) by (rewrite Ed in O; now apply bytes_ok_app in O).
  unfold ip_elem in H. destruct (r_tag r =? 3) eqn:E3.
  - unfold read_as, unmarshal in H. destruct (parse_field GBits p0 (r_full r)) as [[v s]|] eqn:P; [|discriminate].
    destruct (bits_inv p0 _ _ _ ltac:(repeat split) eq_refl Of P) as (e & c & b & X & -> & C & Lc & B).
    cbn [decode_ranges] in H. injection H as <-.
    destruct (reread _ _ _ _ _ _ _ O R X C ltac:(lia) Lc) as [-> _]. rewrite app_nil_r in X. rewrite X.
    apply (el_prefix fam e c b); [exact C|exact B|]. apply prefix_meaning. now destruct B as (u & _ & _ & _ & W).
  - destruct (r_tag r =? 16) eqn:E16.
    + unfold read_as, unmarshal, t_addr_range in H. destruct (parse_field _ p0 (r_full r)) as [[v s]|] eqn:P; [|discriminate].
      destruct (struct_inv _ _ _ _ Of P) as (e & c & vs & X & -> & C & Lc & Oc & F).
      destruct (reread _ _ _ _ _ _ _ O R X C ltac:(lia) Lc) as [-> _]. rewrite app_nil_r in X. rewrite X.
      apply fields_cons in F. destruct F as (v1 & c1 & ws & P1 & F & ->).
      destruct (bits_inv p0 _ _ _ ltac:(repeat split) eq_refl Oc P1) as (e1 & k1 & b1 & -> & -> & C1 & _ & B1).
      apply bytes_ok_app in Oc as [_ Oc].
      apply fields_cons in F. destruct F as (v2 & c2 & ws2 & P2 & F & ->).
      destruct (bits_inv p0 _ _ _ ltac:(repeat split) eq_refl Oc P2) as (e2 & k2 & b2 & -> & -> & C2 & _ & B2).
      cbn [parse_fields] in F. injection F as <-. cbn [decode_ranges] in H. injection H as <-.
      apply (el_range fam e e1 e2 c2 k1 k2 b1 b2); auto.
      * apply low_meaning. now destruct B1 as (u & _ & _ & _ & W).
      * apply high_meaning. now destruct B2 as (u & _ & _ & _ & W).
    + cbn [decode_ranges] in H. injection H as <-. apply (el_other fam tg (r_bytes r)); [exact A|apply T2; lia|apply T2; lia].
Qed.

Lemma ranges_split : forall fam l r, decode_ranges fam l = (r, true) ->
  exists ls, r = concat ls /\ Forall2 (fun x y => decode_ranges fam [x] = (y, true)) l ls.
Proof.
  intros fam. induction l as [|x l IH]; intros r H; [cbn in H; injection H as <-; exists []; split; [reflexivity|constructor]|].
  destruct x as [b|a b| |]; cbn [decode_ranges] in H; try discriminate;
    try (destruct (decode_ranges fam l) as [r' ok] eqn:E; injection H as <- ->;
         destruct (IH _ eq_refl) as (ls & -> & F)).
  - exists ([INet (decode_ip fam b)] :: ls). split; [reflexivity|]. constructor; [reflexivity|exact F].
  - eexists ([_] :: ls). split; [reflexivity|]. constructor; [reflexivity|exact F].
  - exists ([] :: ls). split; [reflexivity|]. constructor; [reflexivity|exact F].
Qed.

Lemma raw_read : forall l v r, parse_field GRaw p0 l = Some (v, r) -> exists x, v = VRaw x /\ parse_raw l = Some (x, r).
Proof.
  intros l v r H. pose proof (raw_reader l) as E. unfold unmarshal in E. rewrite H in E.
  destruct (parse_raw l) as [[x s]|]; [|discriminate]. cbn [opt_map fst snd] in E.
  exists x. assert (v = VRaw x) by congruence. assert (r = s) by congruence. subst. auto.
Qed.

Lemma forall2_map_l : forall {A B C} (f : A -> B) (P : B -> C -> Prop) l m,
  Forall2 P (map f l) m -> Forall2 (fun a c => P (f a) c) l m.
Proof.
  intros A B C f P. induction l as [|a l IH]; intros m H; cbn [map] in H; inversion H; subst; constructor; auto.
Qed.

Lemma choice_inv : forall d r rest fam l, bytes_ok d = true -> parse_raw d = Some (r, rest) -> bytes_ok fam = true ->
  decode_ip_block [(fam, ip_choice r)] = (l, true) -> choice fam (r_full r) l.
Proof.
  intros d r rest fam l O R Ofam H.
  destruct (raw_any _ _ _ O R) as (tg & Ed & A & T1 & T2).
  assert (Of : bytes_ok (r_full r) = true) by (rewrite Ed in O; now apply bytes_ok_app in O).
  unfold ip_choice in H. destruct (r_tag r =? 5) eqn:E5.
  - cbn [decode_ip_block] in H. injection H as <-.
    apply (ch_inherit fam tg (r_bytes r)); [exact A| |now apply marker_meaning].
    destruct (T1 5 ltac:(lia) ltac:(lia)); lia.
  - destruct (r_tag r =? 16) eqn:E16.
    + destruct (read_as (GSlice GRaw) (slice_of raw_of) (r_full r)) as [rs|] eqn:E; [|discriminate].
      cbn [decode_ip_block] in H. destruct (decode_ranges fam (map ip_elem rs)) as [r1 ok1] eqn:D.
      destruct ok1; [|discriminate]. rewrite app_nil_r in H. injection H as <-.
      destruct (slice_inv GRaw raw_of (fun e x => exists s, bytes_ok (e ++ s) = true /\ parse_raw (e ++ s) = Some (x, s) /\ e = r_full x))
        with (d := r_full r) (vs := rs) as (e & s & es & X & C & Lc & F); [|exact Of|exact E|].
      { intros l v x s Ol Pl Fx. destruct (raw_read _ _ _ Pl) as (y & -> & Ry). cbn [raw_of] in Fx. injection Fx as ->.
        destruct (raw_any _ _ _ Ol Ry) as (tg' & El & _). exists (r_full x). split; [exact El|]. exists s.
        rewrite <- El. auto. }
      destruct (reread _ _ _ _ _ _ _ O R X C ltac:(lia) Lc) as [-> _]. rewrite app_nil_r in X. rewrite X.
      destruct (ranges_split _ _ _ D) as (ls & -> & F2). apply forall2_map_l in F2.
      apply (ch_elements fam es); [exact C|].
      refine (forall2_imp _ _ _ _ _ (forall2_compose _ _ _ _ _ F F2)).
      intros e' y (x & (s' & Os & Px & ->) & Dx). exact (elem_inv _ _ _ _ _ Os Px Dx).
    + cbn [decode_ip_block] in H. injection H as <-. apply (ch_other fam tg (r_bytes r)); [exact A|apply T2; lia|apply T2; lia].
Qed.

Lemma block_split : forall blk r, decode_ip_block blk = (r, true) ->
  exists ls, r = concat ls /\ Forall2 (fun x y => decode_ip_block [x] = (y, true)) blk ls.
Proof.
  induction blk as [|[fam c] blk IH]; intros r H; [cbn in H; injection H as <-; exists []; split; [reflexivity|constructor]|].
  destruct c as [|l| |]; cbn [decode_ip_block] in H; try discriminate.
  - destruct (decode_ip_block blk) as [r' ok]. injection H as <- ->. destruct (IH _ eq_refl) as (ls & -> & F).
    exists ([INull (null_family fam)] :: ls). split; [reflexivity|]. constructor; [reflexivity|exact F].
  - destruct (decode_ranges fam l) as [r1 ok1] eqn:D. destruct ok1; [|discriminate].
    destruct (decode_ip_block blk) as [r' ok]. injection H as <- ->. destruct (IH _ eq_refl) as (ls & -> & F).
    exists (r1 :: ls). split; [reflexivity|]. constructor; [|exact F]. cbn [decode_ip_block]. rewrite D. now rewrite app_nil_r.
  - destruct (IH _ H) as (ls & -> & F). exists ([] :: ls). split; [reflexivity|]. constructor; [reflexivity|exact F].
Qed.

Theorem ip_ext_grammar : forall d l, bytes_ok d = true -> decode_ip_ext d = (l, true) -> ip_extension d l.
Proof.
  intros d l O H. unfold decode_ip_ext in H.
  destruct (read_as (GSlice t_ip_family) (slice_of ip_family_of) d) as [blk|] eqn:E; [|discriminate].
  destruct (block_split _ _ H) as (ls & -> & F2).
  destruct (slice_inv t_ip_family ip_family_of
    (fun e x => forall y, decode_ip_block [x] = (y, true) -> family_block e y))
    with (d := d) (vs := blk) as (e & rest & es & -> & C & _ & F); [|exact O|exact E|].
  { intros l v a r Ol Pl Fv. unfold t_ip_family in Pl.
    destruct (struct_inv _ _ _ _ Ol Pl) as (e & c & vs & -> & -> & C & Lc & Oc & F).
    exists e. split; [reflexivity|]. intros y Y.
    apply fields_cons in F. destruct F as (v1 & c1 & ws & P1 & F & ->).
    destruct (octets_inv _ _ _ Oc P1) as (e1 & fam & -> & -> & C1).
    pose proof Oc as Oc'. apply bytes_ok_app in Oc as [O1 Oc].
    apply fields_cons in F. destruct F as (v2 & c2 & ws2 & P2 & F & ->).
    destruct (raw_read _ _ _ P2) as (x & -> & Px). cbn [parse_fields] in F. injection F as <-.
    cbn [ip_family_of] in Fv. injection Fv as <-.
    pose proof (choice_inv _ _ _ _ _ Oc Px (coded_ok _ _ _ C1 O1) Y) as K.
    destruct (raw_any _ _ _ Oc Px) as (tg & Ex & _). rewrite Ex in C.
    exact (fam_block e e1 (r_full x) c2 fam y C C1 K). }
  apply (ip_blocks es e rest ls C).
  refine (forall2_imp _ _ _ _ _ (forall2_compose _ _ _ _ _ F F2)). intros a c (b & Hb & Hc). auto.
Qed.

(** ** ROA contents *)
Lemma slice_of_inv : forall {A} t' (f : govalue -> option A) (P : bytes -> A -> Prop),
  (forall l v a r, bytes_ok l = true -> parse_field t' p0 l = Some (v, r) -> f v = Some a -> exists e, l = e ++ r /\ P e a) ->
  forall d v vs rest, bytes_ok d = true -> parse_field (GSlice t') p0 d = Some (v, rest) -> slice_of f v = Some vs ->
  exists e es, d = e ++ rest /\ coded 48 (concat es) e /\ Forall2 P es vs.
Proof.
  intros A t' f P HP d v vs rest O E H.
  assert (R : read_as (GSlice t') (slice_of f) d = Some vs) by (unfold read_as, unmarshal; now rewrite E).
  destruct (p0_inv (GSlice t') 16 true d v rest eq_refl ltac:(discriminate) ltac:(discriminate) ltac:(lia) O E)
    as (e & c & h & full & X & C & Lc & D).
  destruct (slice_inv t' f P HP d vs O R) as (e2 & rest2 & es & Y & C2 & Lc2 & F).
  destruct C as (l1 & H1 & ->). destruct C2 as (l2 & H2 & ->).
  rewrite X in Y. cbn [app] in Y. injection Y as Y. rewrite <- !app_assoc in Y.
  pose proof (parse_length_read _ l1 (c ++ rest) H1 Lc) as P1.
  pose proof (parse_length_read _ l2 (concat es ++ rest2) H2 Lc2) as P2.
  rewrite Y, P2 in P1. apply some_eq in P1.
  pose proof (f_equal fst P1) as N. pose proof (f_equal snd P1) as Z. cbn [fst snd] in N, Z. apply Nat2Z.inj in N.
  assert (concat es = c).
  { apply (f_equal (firstn (length c))) in Z. rewrite !firstn_app in Z. rewrite N, Nat.sub_diag, !firstn_O, !app_nil_r in Z.
    rewrite firstn_all in Z. rewrite <- N in Z. now rewrite firstn_all in Z. }
  exists ((48 :: l1) ++ c), es. split; [rewrite X; cbn [app]; now rewrite <- app_assoc|]. split; [|exact F].
  exists l1. subst c. auto.
Qed.

Lemma entry_len : forall fam b net n, wf_bits b -> fam_octets fam n -> decode_ip fam b = Some net ->
  fst (mask_size (nmask net)) = prefix_len b n.
Proof.
  intros fam b net n W F D. unfold prefix_len. pose proof (fam_len _ _ F) as N.
  destruct (bs_len b <=? 8 * Z.of_nat n) eqn:L.
  - destruct (decode_ip_spec fam n b F W ltac:(lia)) as (net' & D' & _ & _ & M & _).
    assert (net' = net) by congruence. subst net'. rewrite M.
    assert (0 <= bs_len b) by (destruct W as (_ & ? & _); assumption).
    rewrite mask_size_cidr by (auto; lia). reflexivity.
  - destruct (decode_ip_too_long fam n b F ltac:(lia)) as (net' & D' & M).
    assert (net' = net) by congruence. subst net'. rewrite M. reflexivity.
Qed.

Lemma addr_inv : forall fam l v a r e, bytes_ok l = true -> parse_field t_roa_addr p0 l = Some (v, r) ->
  roa_addr_of v = Some a -> convert_addrs fam [a] = Some [e] ->
  exists o, l = o ++ r /\ roa_address fam o e.
Proof.
  intros fam l v a r e Ol Pl Fv Cv. unfold t_roa_addr in Pl.
  destruct (struct_inv _ _ _ _ Ol Pl) as (o & c & vs & -> & -> & C & Lc & Oc & F).
  exists o. split; [reflexivity|].
  apply fields_cons in F. destruct F as (v1 & c1 & ws & P1 & F & ->).
  destruct (bits_inv p0 _ _ _ ltac:(repeat split) eq_refl Oc P1) as (e1 & k1 & b & -> & -> & C1 & _ & B).
  apply bytes_ok_app in Oc as [_ Oc].
  apply fields_cons in F. destruct F as (v2 & c2 & ws2 & P2 & F & ->). cbn [parse_fields] in F. injection F as <-.
  assert (W : wf_bits b) by now destruct B as (u & _ & _ & _ & W).
  assert (G : forall m, v2 = VInt m -> exists net n, fam_octets fam n /\ prefix_of fam b (Some net) /\
    e = mkEntry net (if m <? 0 then prefix_len b n else m)).
  { intros m ->. cbn [roa_addr_of] in Fv. injection Fv as <-. cbn [convert_addrs ra_bits ra_maxlen] in Cv.
    destruct (decode_ip fam b) as [net|] eqn:D; [|discriminate]. injection Cv as <-.
    pose proof (prefix_meaning fam b W) as Pm. rewrite D in Pm.
    assert (exists n, fam_octets fam n) as [n Fn].
    { unfold decode_ip in D. destruct (family_size fam) as [n|] eqn:E; [|discriminate]. exists n. now apply family_size_iff. }
    exists net, n. split; [exact Fn|]. split; [exact Pm|]. now rewrite (entry_len fam b net n W Fn D). }
  destruct (maxlen_inv _ _ _ Oc P2) as [(e2 & k2 & m & -> & V & C2 & I2)|(V & -> & N)].
  - destruct (G m V) as (net & n & Fn & Pm & ->). now apply (addr_maxlen fam o e1 e2 c2 k1 k2 b m n net).
  - destruct (G (-1) V) as (net & n & Fn & Pm & ->). change (-1 <? 0) with true. cbv iota.
    now apply (addr_plain fam o e1 c1 k1 b n net).
Qed.

Lemma convert_split : forall fam l r, convert_addrs fam l = Some r -> Forall2 (fun a e => convert_addrs fam [a] = Some [e]) l r.
Proof.
  intros fam. induction l as [|a l IH]; intros r H; cbn [convert_addrs] in H; [injection H as <-; constructor|].
  destruct (decode_ip fam (ra_bits a)) as [n|] eqn:D; [|discriminate].
  destruct (convert_addrs fam l) as [r'|] eqn:E; [|discriminate]. injection H as <-. constructor; [|now apply IH].
  cbn [convert_addrs]. now rewrite D.
Qed.

Lemma blocks_split : forall l r, convert_entries l = Some r ->
  exists ls, r = concat ls /\ Forall2 (fun x y => convert_addrs (fst x) (snd x) = Some y) l ls.
Proof.
  induction l as [|[fam a] l IH]; intros r H; cbn [convert_entries] in H; [injection H as <-; exists []; split; [reflexivity|constructor]|].
  destruct (convert_addrs fam a) as [x|] eqn:E; [|discriminate].
  destruct (convert_entries l) as [y|] eqn:E2; [|discriminate]. injection H as <-.
  destruct (IH y eq_refl) as (ls & -> & F). exists (x :: ls). split; [reflexivity|]. constructor; [exact E|exact F].
Qed.

Theorem roa_grammar : forall d asn blocks l, bytes_ok d = true ->
  read_as t_roa_content roa_content_of d = Some (asn, blocks) -> convert_entries blocks = Some l ->
  roa_octets d asn l.
Proof.
  intros d asn blocks l O R Cv. unfold read_as, unmarshal, t_roa_content in R.
  destruct (parse_field _ p0 d) as [[v rest]|] eqn:E; [|discriminate].
  destruct (struct_inv _ _ _ _ O E) as (o & c & vs & -> & -> & C & Lc & Oc & F).
  apply fields_cons in F. destruct F as (v1 & c1 & ws & P1 & F & ->).
  destruct (int_inv _ _ _ Oc P1) as (e1 & k1 & n & -> & -> & C1 & I1).
  apply bytes_ok_app in Oc as [_ Oc].
  apply fields_cons in F. destruct F as (v2 & c2 & ws2 & P2 & F & ->). cbn [parse_fields] in F. injection F as <-.
  cbn [roa_content_of] in R. destruct (slice_of roa_family_of v2) as [bs|] eqn:S; [|discriminate].
  cbn [opt_map] in R. injection R as -> ->.
  destruct (blocks_split _ _ Cv) as (ls & -> & F2).
  destruct (slice_of_inv t_roa_family roa_family_of
    (fun e x => forall y, convert_addrs (fst x) (snd x) = Some y -> roa_block e y))
    with (d := c1) (v := v2) (vs := blocks) (rest := c2) as (e2 & es & -> & C2 & Fb); [|exact Oc|exact P2|exact S|].
  { clear. intros l v [fam la] r Ol Pl Fv. unfold t_roa_family in Pl.
    destruct (struct_inv _ _ _ _ Ol Pl) as (e & c & vs & -> & -> & C & Lc & Oc & F).
    exists e. split; [reflexivity|]. intros y Y. cbn [fst snd] in Y.
    apply fields_cons in F. destruct F as (v1 & c1 & ws & P1 & F & ->).
    destruct (octets_inv _ _ _ Oc P1) as (e1 & fam' & -> & -> & C1).
    apply bytes_ok_app in Oc as [O1 Oc].
    apply fields_cons in F. destruct F as (v2 & c2 & ws2 & P2 & F & ->). cbn [parse_fields] in F. injection F as <-.
    cbn [roa_family_of] in Fv. destruct (slice_of roa_addr_of v2) as [bs|] eqn:S; [|discriminate].
    cbn [opt_map] in Fv. injection Fv as -> ->.
    destruct (slice_of_inv t_roa_addr roa_addr_of
      (fun e x => forall y, convert_addrs fam [x] = Some [y] -> roa_address fam e y))
      with (d := c1) (v := v2) (vs := la) (rest := c2) as (e2 & es & -> & C2 & Fb); [|exact Oc|exact P2|exact S|].
    { intros l v a s Ol' Pl' Fv'. destruct (parse_good t_roa_addr p0 l v s Pl') as (_ & (q & X) & _).
      exists q. split; [exact X|]. intros z Cy. destruct (addr_inv fam l v a s z Ol' Pl' Fv' Cy) as (o & Y' & Q).
      rewrite X in Y'. apply app_inv_tail in Y'. now subst q. }
    apply (roa_fam e e1 e2 c2 fam es y C C1 C2).
    refine (forall2_imp _ _ _ _ _ (forall2_compose _ _ _ _ _ Fb (convert_split _ _ _ Y))). intros a b (x & Hb & Hc). auto. }
  apply (roa_whole o e1 e2 c2 rest k1 asn es ls C C1 I1 C2).
  refine (forall2_imp _ _ _ _ _ (forall2_compose _ _ _ _ _ Fb F2)). intros a b (x & Hb & Hc). auto.
Qed.
