(** Whatever Unmarshal returns is of the type asked for, and consists of parts
    of the input. *)
From Coq Require Import Lia Bool ZifyBool ZifyNat.
From Verif.Model Require Import Base Str NetIP CertRes Ber Asn1 GoTime Der.
From Verif.Spec Require Import Addr Bits BerSpec.
From Verif.Proofs Require Import NetIPProofs DerPrim DerProofs DerBytes ObjEncode.

(** ** Parts of a byte string *)
Definition infix (a d : bytes) : Prop := exists pre post, d = pre ++ a ++ post.

Lemma infix_refl : forall a, infix a a.
Proof. intros a. exists [], []. now rewrite app_nil_r. Qed.
Lemma infix_nil : forall a, infix [] a.
Proof. intros a. exists [], a. reflexivity. Qed.
Lemma infix_trans : forall a b c, infix a b -> infix b c -> infix a c.
Proof.
  intros a b c (p & q & ->) (r & s & ->). exists (r ++ p), (q ++ s). now rewrite !app_assoc.
Qed.
Lemma infix_app : forall a p q, infix a (p ++ a ++ q).
Proof. intros. now exists p, q. Qed.
Lemma infix_firstn : forall n (l : bytes), infix (firstn n l) l.
Proof. intros. exists [], (skipn n l). cbn [app]. now rewrite firstn_skipn. Qed.
Lemma infix_suffix : forall (a b : bytes), infix b (a ++ b).
Proof. intros a b. exists a, []. now rewrite app_nil_r. Qed.
Lemma infix_ok : forall a d, infix a d -> bytes_ok d = true -> bytes_ok a = true.
Proof.
  intros a d (p & q & ->) H. unfold bytes_ok in *. rewrite !forallb_app in H. apply andb_true_iff in H. destruct H as [_ H].
  now apply andb_true_iff in H.
Qed.

(** ** The parts of a value *)
Definition all_of (P : govalue -> Prop) : list govalue -> Prop :=
  fix all (l : list govalue) : Prop := match l with [] => True | v :: l' => P v /\ all l' end.
Fixpoint inside (d : bytes) (v : govalue) : Prop :=
  match v with
  | VRaw r => infix (r_full r) d /\ infix (r_bytes r) (r_full r)
  | VBits b => exists pad, infix (pad :: bs_bytes b) d /\ parse_bitstring (pad :: bs_bytes b) = Some b
  | VOctets b => infix b d
  | VStruct raw l => infix raw d /\ all_of (inside d) l
  | VSlice l => all_of (inside d) l
  | _ => True
  end.
Lemma all_of_forall : forall P l, all_of P l <-> Forall P l.
Proof.
  intros P l. induction l as [|v l IH]; [split; [constructor|exact (fun _ => I)]|].
  cbn [all_of]. fold (all_of P). rewrite IH. split; [intros []; now constructor|inversion 1; now split].
Qed.

Fixpoint size (v : govalue) : nat :=
  match v with
  | VStruct _ l | VSlice l => S ((fix sum (l : list govalue) : nat := match l with [] => 0%nat | v :: l' => (size v + sum l')%nat end) l)
  | _ => 1%nat
  end.
Fixpoint sizes (l : list govalue) : nat := match l with [] => 0%nat | v :: l' => (size v + sizes l')%nat end.
Lemma size_struct : forall rc l, size (VStruct rc l) = S (sizes l).
Proof. intros rc l. reflexivity. Qed.
Lemma size_slice : forall l, size (VSlice l) = S (sizes l).
Proof. intros l. reflexivity. Qed.
Lemma inside_mono : forall v a d, infix a d -> inside a v -> inside d v.
Proof.
  assert (G : forall n v a d, size v = n -> infix a d -> inside a v -> inside d v); [|intros; eapply G; eauto].
  intros n. induction n as [n IH] using (well_founded_induction Wf_nat.lt_wf).
  assert (A : forall l a d, (sizes l < n)%nat -> infix a d -> all_of (inside a) l -> all_of (inside d) l).
  { induction l as [|v l IHl]; intros a d L Ha H; [exact I|]. cbn [sizes] in L. destruct H as [H1 H2]. split.
    - apply (IH (size v)) with (a := a); [lia|reflexivity|exact Ha|exact H1].
    - apply (IHl a d ltac:(lia) Ha H2). }
  intros v a d E Ha H. destruct v; try exact I.
  - destruct H as [X Y]. split; [eapply infix_trans; eauto|exact Y].
  - destruct H as (pad & X & Y). exists pad. split; [eapply infix_trans; eauto|exact Y].
  - eapply infix_trans; eauto.
  - destruct H as [X Y]. split; [eapply infix_trans; eauto|]. apply (A l a d); auto. rewrite size_struct in E. lia.
  - apply (A l a d); auto. rewrite size_slice in E. lia.
Qed.

(** ** The type of a value *)
Fixpoint typed (t : gotype) (v : govalue) : Prop :=
  match t, v with
  | GRaw, VRaw _ | GOid, VOid _ | GBits, VBits _ | GTime, VTime _ | GBig, VBig _ | GInt, VInt _
  | GOctets, VOctets _ | GString, VStr _ | GBool, VBool _ => True
  | GStruct _ fs, VStruct _ l =>
      (fix all (fs : list (params * gotype)) (l : list govalue) : Prop :=
         match fs, l with
         | [], [] => True
         | (_, t) :: fs', v :: l' => typed t v /\ all fs' l'
         | _, _ => False
         end) fs l
  | GSlice t', VSlice l => all_of (typed t') l
  | _, _ => False
  end.
Fixpoint typed_fields (fs : list (params * gotype)) (l : list govalue) : Prop :=
  match fs, l with
  | [], [] => True
  | (_, t) :: fs', v :: l' => typed t v /\ typed_fields fs' l'
  | _, _ => False
  end.
Lemma typed_struct : forall rc raw fs l, typed (GStruct rc fs) (VStruct raw l) <-> typed_fields fs l.
Proof.
  intros rc raw fs. induction fs as [|[p t] fs IH]; intros [|v l]; reflexivity.
Qed.

(** No bit string is optional, in [t] or below. *)
Fixpoint solid (t : gotype) (p : params) : bool :=
  match t with
  | GBits => negb (p_opt p)
  | GStruct _ fs => negb (p_opt p) && forallb (fun f => solid (snd f) (fst f)) fs
  | GSlice t' => solid t' p0
  | _ => true
  end.

Lemma parse_length_suffix : forall l n r, parse_length l = Some (n, r) -> exists h, l = h ++ r /\ h <> [].
Proof.
  assert (LL : forall k acc l n r, long_length k acc l = Some (n, r) -> exists h, l = h ++ r).
  { induction k as [|k IH]; intros acc l n r H; cbn [long_length] in H.
    - exists []. now injection H as _ <-.
    - destruct l as [|b l]; [discriminate|]. destruct (2 ^ 23 <=? acc); [discriminate|].
      cbv zeta in H. destruct (acc * 256 + b =? 0); [discriminate|].
      destruct (IH _ _ _ _ H) as (h & ->). now exists (b :: h). }
  intros [|b l] n r H; [discriminate|]. unfold parse_length in H.
  destruct (b <? 128); [injection H as _ <-; exists [b]; split; [reflexivity|discriminate]|].
  destruct (b =? 128); [discriminate|].
  destruct (long_length _ 0 l) as [[m r']|] eqn:E; [|discriminate]. destruct (m <? 128); [discriminate|].
  assert (r' = r) by congruence. subst r'. destruct (LL _ _ _ _ _ E) as (h & ->). exists (b :: h). split; [reflexivity|discriminate].
Qed.
Lemma base128_suffix : forall k f acc l v r, base128 k f acc l = Some (v, r) -> exists h, l = h ++ r.
Proof.
  induction k as [|k IH]; intros f acc l v r H; cbn [base128] in H; [discriminate|].
  destruct l as [|b l]; [discriminate|].
  destruct (f && (b =? 128)); [discriminate|]. cbv zeta in H.
  destruct (b <? 128).
  - destruct (_ <? 2 ^ 31); [|discriminate]. exists [b]. cbn [app]. congruence.
  - destruct (IH _ _ _ _ _ H) as (h & ->). now exists (b :: h).
Qed.
Lemma header_suffix : forall l h r, parse_header l = Some (h, r) -> exists p, l = p ++ r /\ (2 <= length p)%nat.
Proof.
  intros [|b l] h r H; [discriminate|]. unfold parse_header in H. cbv zeta in H.
  assert (T : exists tag r1 p, (if b mod 32 =? 31 then match base128 5 true 0 l with
                | Some (t, r') => if t <? 31 then None else Some (t, r') | None => None end
              else Some (b mod 32, l)) = Some (tag, r1) /\ l = p ++ r1).
  { destruct (b mod 32 =? 31).
    - destruct (base128 5 true 0 l) as [[t r']|] eqn:E; [|discriminate]. destruct (t <? 31); [discriminate|].
      destruct (base128_suffix _ _ _ _ _ _ E) as (p & ->). now exists t, r', p.
    - now exists (b mod 32), l, []. }
  destruct T as (tag & r1 & p & E & ->). rewrite E in H.
  destruct (parse_length r1) as [[n r2]|] eqn:E2; [|discriminate]. assert (r2 = r) by congruence. subst r2.
  destruct (parse_length_suffix _ _ _ E2) as (q & -> & Q). exists (b :: p ++ q). split; [cbn [app]; now rewrite <- app_assoc|].
  cbn [length]. rewrite app_length. destruct q; [congruence|]. cbn [length]. lia.
Qed.

Lemma zero_typed : forall t, typed t (zero_of t).
Proof.
  apply gotype_rec2.
  - intros t H. destruct t; try exact I; contradiction.
  - intros rc fs H. cbn [zero_of]. apply typed_struct. induction H as [|[p t] fs Ht Hf IH]; [exact I|].
    cbn [map typed_fields]. split; [exact Ht|exact IH].
  - intros t _. exact I.
Qed.

Lemma default_typed : forall p t v, default_value p t = Some v -> typed t v.
Proof.
  intros p t v H. unfold default_value in H. destruct (p_opt p); [|discriminate].
  apply some_eq in H. subst v. pose proof (zero_typed t) as Z. destruct t; try exact Z.
  destruct (p_default p); exact I.
Qed.

Definition solid_default (p : params) (t : gotype) (d : bytes) : solid t p = true ->
  forall v, default_value p t = Some v -> inside d v.
Proof.
  intros S v H. unfold default_value in H. destruct (p_opt p) eqn:O; [|discriminate].
  apply some_eq in H. subst v. destruct t; try exact I; cbn [zero_of inside].
  - split; apply infix_nil.
  - cbn in S. rewrite O in S. discriminate.
  - destruct (p_default p); exact I.
  - apply infix_nil.
  - cbn in S. rewrite O in S. discriminate.
Qed.

Definition good_parse (t : gotype) : Prop := forall p l v r, parse_field t p l = Some (v, r) ->
  typed t v /\ (exists q, l = q ++ r) /\ (solid t p = true -> inside l v).

Lemma parse_good : forall t, good_parse t.
Proof.
  assert (Main : forall t,
    (forall p h inner full v, decode_inner t p h inner full = Some v -> infix inner full ->
       typed t v /\ (solid t p = true -> inside full v)) -> good_parse t).
  { intros t D p l v r H. rewrite parse_field_eq in H. cbv zeta in H.
    assert (Df : match default_value p t with Some v => Some (v, l) | None => None end = Some (v, r) ->
                 typed t v /\ (exists q, l = q ++ r) /\ (solid t p = true -> inside l v)).
    { intros X. destruct (default_value p t) as [w|] eqn:E; [|discriminate].
      assert (w = v) by congruence. assert (l = r) by congruence. subst w r.
      split; [now apply (default_typed p)|]. split; [now exists []|]. intros S. now apply (solid_default p t). }
    destruct l as [|b l0]; [now apply Df|]. set (l := b :: l0) in *. clearbody l.
    destruct (parse_header l) as [[h0 r0]|] eqn:Eh; [|discriminate].
    destruct (header_suffix _ _ _ Eh) as (p1 & E1 & Ep1).
    assert (OE : forall h r1, open_explicit p t h0 r0 = Go h r1 -> exists p2, l = p2 ++ r1).
    { intros h r1 X. unfold open_explicit in X. destruct (p_explicit p); [|injection X as _ <-; now exists p1].
      destruct r0 as [|x0 r0']; [discriminate|]. set (rr := x0 :: r0') in *. clearbody rr.
      destruct (_ && _); [|discriminate].
      assert (Y : (if 0 <? h_len h0 then match parse_header rr with Some (h', r') => Go h' r' | None => Fail end else Fail)
                  = Go h r1 -> exists p2, l = p2 ++ r1).
      { intros Z. destruct (0 <? h_len h0); [|discriminate].
        destruct (parse_header rr) as [[h' r']|] eqn:E; [|discriminate]. assert (r' = r1) by congruence. subst r'.
        destruct (header_suffix _ _ _ E) as (q & E' & _). exists (p1 ++ q). rewrite E1, E'. now rewrite app_assoc. }
      destruct t; try now apply Y. exists p1. congruence. }
    destruct (open_explicit p t h0 r0) as [h r1| |] eqn:Eo; [|now apply Df|discriminate].
    destruct (OE h r1 eq_refl) as (p2 & E2).
    destruct (negb (matches p t h)); [now apply Df|].
    destruct (Z.of_nat (length r1) <? h_len h) eqn:El; [discriminate|].
    set (inner := firstn (Z.to_nat (h_len h)) r1) in *. set (rest := skipn (Z.to_nat (h_len h)) r1) in *.
    assert (Er : r1 = inner ++ rest) by (symmetry; apply firstn_skipn).
    set (full := firstn (length l - length rest) l) in *.
    assert (Ef : full = p2 ++ inner).
    { unfold full. rewrite E2 at 2. rewrite Er, app_assoc.
      replace (length l - length rest)%nat with (length (p2 ++ inner) + 0)%nat.
      - rewrite firstn_app_2. cbn [firstn]. now rewrite app_nil_r.
      - rewrite E2, Er. rewrite !app_length. lia. }
    destruct (decode_inner t p h inner full) as [w|] eqn:Ew; [|discriminate]. cbn [opt_map] in H.
    assert (w = v) by congruence. assert (rest = r) by congruence. subst w r.
    assert (If : infix inner full) by (rewrite Ef; apply infix_suffix).
    destruct (D p h inner full v Ew If) as [Ty In]. split; [exact Ty|]. split.
    - exists (p2 ++ inner). rewrite E2, Er. now rewrite app_assoc.
    - intros S. apply (inside_mono v full l); [apply infix_firstn|]. now apply In. }
  apply gotype_rec2.
  - intros t Ht. apply Main. intros p h inner full v H If.
    destruct t; try contradiction; cbn [decode_inner] in H.
    + apply some_eq in H. subst v. split; [exact I|]. intros _. split; [apply infix_refl|exact If].
    + destruct (parse_oid_value inner); [|discriminate]. apply some_eq in H. subst v. now split.
    + destruct (parse_bitstring inner) as [b|] eqn:E; [|discriminate]. apply some_eq in H. subst v.
      split; [exact I|]. intros _. cbn [inside]. pose proof E as E'. unfold parse_bitstring in E'.
      destruct inner as [|pad r]; [discriminate|]. destruct (_ || _); [discriminate|]. apply some_eq in E'.
      exists pad. rewrite <- E' at 1 2. cbn [bs_bytes]. now split.
    + destruct (if wire_tag p GTime h =? 23 then _ else _); [|discriminate]. apply some_eq in H. subst v. now split.
    + destruct (parse_bigint inner); [|discriminate]. apply some_eq in H. subst v. now split.
    + destruct (parse_int64 inner); [|discriminate]. apply some_eq in H. subst v. now split.
    + apply some_eq in H. subst v. split; [exact I|]. intros _. exact If.
    + destruct (parse_string _ inner); [|discriminate]. apply some_eq in H. subst v. now split.
    + destruct (parse_bool inner); [|discriminate]. apply some_eq in H. subst v. now split.
  - intros rc fs Hfs. apply Main. intros p h inner full v H If. cbn [decode_inner] in H.
    destruct (parse_fields fs inner) as [l|] eqn:E; [|discriminate]. apply some_eq in H. subst v.
    assert (G : typed_fields fs l /\
      (forallb (fun f => solid (snd f) (fst f)) fs = true -> all_of (inside inner) l)).
    { clear If h p full. revert inner l E. induction Hfs as [|[p t] fs Ht Hf IH]; intros inner l E; cbn [parse_fields] in E.
      - apply some_eq in E. subst l. split; exact I || (intros; exact I).
      - destruct (parse_field t p inner) as [[v r]|] eqn:Ev; [|discriminate].
        destruct (parse_fields fs r) as [vs|] eqn:Es; [|discriminate]. apply some_eq in E. subst l.
        destruct (Ht p inner v r Ev) as (T1 & (q & Eq) & S1). destruct (IH r vs Es) as (T2 & S2).
        split; [split; assumption|]. cbn [forallb fst snd]. intros S. apply andb_true_iff in S. destruct S as [Sa Sb].
        split; [now apply S1|]. fold (all_of (inside inner)). specialize (S2 Sb). apply all_of_forall. apply all_of_forall in S2.
        eapply Forall_impl; [|exact S2]. intros w Hw. apply (inside_mono w r); [|exact Hw].
        rewrite Eq. apply infix_suffix. }
    destruct G as [T S]. split; [now apply typed_struct|]. cbn [solid]. intros X. apply andb_true_iff in X. destruct X as [_ X].
    cbn [inside]. split; [destruct rc; [apply infix_refl|apply infix_nil]|].
    specialize (S X). apply all_of_forall. apply all_of_forall in S. eapply Forall_impl; [|exact S].
    intros w Hw. now apply (inside_mono w inner).
  - intros t Ht. apply Main. intros p h inner full v H If. cbn [decode_inner] in H.
    destruct (many (parse_field t p0) (length inner) inner) as [l|] eqn:E; [|discriminate]. apply some_eq in H. subst v.
    assert (G : forall k inner l, many (parse_field t p0) k inner = Some l ->
       Forall (typed t) l /\ (solid t p0 = true -> Forall (inside inner) l)).
    { induction k as [|k IH]; intros i l0 X.
      - destruct i; cbn [many] in X; [|discriminate]. apply some_eq in X. subst l0. split; [constructor|intros; constructor].
      - destruct i as [|b i]; cbn [many] in X; [apply some_eq in X; subst l0; split; [constructor|intros; constructor]|].
        set (ii := b :: i) in *. clearbody ii. destruct (parse_field t p0 ii) as [[v r]|] eqn:Ev; [|discriminate].
        destruct (many (parse_field t p0) k r) as [vs|] eqn:Es; [|discriminate]. apply some_eq in X. subst l0.
        destruct (Ht p0 ii v r Ev) as (T1 & (q & Eq) & S1). destruct (IH r vs Es) as (T2 & S2).
        split; [now constructor|]. intros S. constructor; [now apply S1|].
        eapply Forall_impl; [|exact (S2 S)]. intros w Hw. apply (inside_mono w r); [|exact Hw]. rewrite Eq. apply infix_suffix. }
    destruct (G _ _ _ E) as [T S]. split; [cbn [typed]; now apply all_of_forall|]. cbn [solid inside]. intros X.
    apply all_of_forall. eapply Forall_impl; [|exact (S X)]. intros w Hw. now apply (inside_mono w inner).
Qed.

(** ** Fuel *)
(** A value that is not optional takes at least two octets. *)
Lemma parse_takes : forall t p l v r, p_opt p = false -> parse_field t p l = Some (v, r) ->
  (length r + 2 <= length l)%nat.
Proof.
  intros t p l v r O H. rewrite parse_field_eq in H. cbv zeta in H.
  assert (Df : default_value p t = None) by (unfold default_value; now rewrite O). rewrite Df in H.
  destruct l as [|b l0]; [discriminate|]. set (l := b :: l0) in *. clearbody l.
  destruct (parse_header l) as [[h0 r0]|] eqn:Eh; [|discriminate].
  destruct (header_suffix _ _ _ Eh) as (p1 & E1 & Ep1).
  assert (OE : forall h r1, open_explicit p t h0 r0 = Go h r1 -> (length r1 <= length r0)%nat).
  { intros h r1 X. unfold open_explicit in X. destruct (p_explicit p); [|assert (r0 = r1) by congruence; subst; lia].
    destruct r0 as [|x0 r0']; [discriminate|]. set (rr := x0 :: r0') in *. clearbody rr.
    destruct (_ && _); [|discriminate].
    assert (Y : (if 0 <? h_len h0 then match parse_header rr with Some (h', r') => Go h' r' | None => Fail end else Fail)
                = Go h r1 -> (length r1 <= length rr)%nat).
    { intros Z. destruct (0 <? h_len h0); [|discriminate].
      destruct (parse_header rr) as [[h' r']|] eqn:E; [|discriminate]. assert (r' = r1) by congruence. subst r'.
      destruct (header_suffix _ _ _ E) as (q & -> & _). rewrite app_length. lia. }
    destruct t; try now apply Y. assert (rr = r1) by congruence. subst. lia. }
  destruct (open_explicit p t h0 r0) as [h r1| |] eqn:Eo; [|discriminate|discriminate].
  specialize (OE h r1 eq_refl). destruct (negb (matches p t h)); [discriminate|].
  destruct (Z.of_nat (length r1) <? h_len h); [discriminate|].
  destruct (decode_inner _ _ _ _ _); [|discriminate]. cbn [opt_map] in H.
  assert (E : r = skipn (Z.to_nat (h_len h)) r1) by congruence. rewrite E, E1, app_length, skipn_length. lia.
Qed.

(** More fuel than the length of the input changes nothing. *)
Lemma many_enough : forall t k l, (length l <= k)%nat ->
  many (parse_field t p0) k l = many (parse_field t p0) (length l) l.
Proof.
  assert (G : forall t n k1 k2 l, (length l <= n)%nat -> (length l <= k1)%nat -> (length l <= k2)%nat ->
    many (parse_field t p0) k1 l = many (parse_field t p0) k2 l).
  { intros t. induction n as [|n IH]; intros k1 k2 l Hn H1 H2.
    - destruct l; [|cbn in Hn; lia]. destruct k1, k2; reflexivity.
    - destruct l as [|b l]; [destruct k1, k2; reflexivity|].
      destruct k1 as [|k1], k2 as [|k2]; try (cbn in H1, H2; lia). cbn [many].
      destruct (parse_field t p0 (b :: l)) as [[v r]|] eqn:E; [|reflexivity].
      pose proof (parse_takes t p0 _ _ _ eq_refl E) as T. cbn [length] in *.
      rewrite (IH k1 k2 r); [reflexivity|lia|lia|lia]. }
  intros. apply (G t (length l)); lia.
Qed.

Lemma base128_takes : forall k f acc l v r, base128 k f acc l = Some (v, r) -> (length r < length l)%nat.
Proof.
  induction k as [|k IH]; intros f acc l v r H; cbn [base128] in H; [discriminate|].
  destruct l as [|b l]; [discriminate|].
  destruct (f && (b =? 128)); [discriminate|]. cbv zeta in H.
  destruct (b <? 128).
  - destruct (_ <? 2 ^ 31); [|discriminate]. assert (l = r) by congruence. subst. cbn [length]. lia.
  - pose proof (IH _ _ _ _ _ H). cbn [length]. lia.
Qed.
Lemma oid_enough : forall k l, (length l <= k)%nat -> oid_rest k l = oid_rest (length l) l.
Proof.
  assert (G : forall n k1 k2 l, (length l <= n)%nat -> (length l <= k1)%nat -> (length l <= k2)%nat ->
    oid_rest k1 l = oid_rest k2 l).
  { induction n as [|n IH]; intros k1 k2 l Hn H1 H2.
    - destruct l; [|cbn in Hn; lia]. destruct k1, k2; reflexivity.
    - destruct l as [|b l]; [destruct k1, k2; reflexivity|].
      destruct k1 as [|k1], k2 as [|k2]; try (cbn in H1, H2; lia). cbn [oid_rest].
      destruct (base128 5 true 0 (b :: l)) as [[v r]|] eqn:E; [|reflexivity].
      pose proof (base128_takes _ _ _ _ _ _ E) as T. cbn [length] in *.
      rewrite (IH k1 k2 r); [reflexivity|lia|lia|lia]. }
  intros. apply (G (length l)); lia.
Qed.
