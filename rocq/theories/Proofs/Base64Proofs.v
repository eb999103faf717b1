(** The base64 decoder meets its specification by bits. *)
From Coq Require Import Lia.
From Verif.Model Require Import Base Str Base64.
From Verif.Spec Require Import B64.

(** ** Bits *)
Lemma bits_length : forall n v, length (bits n v) = n.
Proof. induction n; intros; cbn; auto. Qed.

Lemma bits_app : forall m n a b, 0 <= b < 2 ^ Z.of_nat n ->
  bits (m + n) (a * 2 ^ Z.of_nat n + b) = bits m a ++ bits n b.
Proof.
  intros m n a b Hb. induction m as [|m IH].
  - cbn [Nat.add app bits].
    assert (G : forall k, (k <= n)%nat -> bits k (a * 2 ^ Z.of_nat n + b) = bits k b).
    { induction k as [|k IH]; intros Hk; [reflexivity|]. cbn [bits]. rewrite IH by lia. f_equal.
      rewrite <- (Z.mod_pow2_bits_low (a * 2 ^ Z.of_nat n + b) (Z.of_nat n)) by lia.
      rewrite Z.add_comm, Z_mod_plus_full, Z.mod_small by lia. reflexivity. }
    now apply G.
  - cbn [Nat.add app bits]. rewrite IH. f_equal.
    rewrite Nat2Z.inj_add.
    rewrite <- Z.div_pow2_bits by lia.
    rewrite Z.div_add_l by (apply Z.pow_nonzero; lia). rewrite (Z.div_small b) by lia. now rewrite Z.add_0_r.
Qed.

Lemma bits_inj : forall n a b, 0 <= a < 2 ^ Z.of_nat n -> 0 <= b < 2 ^ Z.of_nat n ->
  bits n a = bits n b -> a = b.
Proof.
  intros n a b Ha Hb H. apply Z.bits_inj'. intros k Hk.
  destruct (Z_lt_le_dec k (Z.of_nat n)) as [L|L].
  - assert (G : forall m, (Z.to_nat k < m)%nat -> bits m a = bits m b -> Z.testbit a k = Z.testbit b k).
    { induction m as [|m IH]; intros Hm E; [lia|]. cbn [bits] in E. injection E as E1 E2.
      destruct (Nat.eq_dec (Z.to_nat k) m) as [X|X].
      - subst m. rewrite Z2Nat.id in E1 by lia. exact E1.
      - apply IH; [lia|exact E2]. }
    apply (G n); [lia|exact H].
  - assert (Z0 : forall x, 0 <= x < 2 ^ Z.of_nat n -> Z.testbit x k = false).
    { intros x Hx. destruct (Z.eq_dec x 0) as [->|N]; [apply Z.bits_0|].
      apply Z.bits_above_log2; [lia|]. apply Z.log2_lt_pow2; [lia|].
      eapply Z.lt_le_trans; [apply Hx|]. apply Z.pow_le_mono_r; lia. }
    now rewrite !Z0.
Qed.

Lemma octet_bits_length : forall d, length (octet_bits d) = (8 * length d)%nat.
Proof.
  induction d as [|x d IH]; [reflexivity|]. unfold octet_bits in *. cbn [map concat].
  rewrite app_length, bits_length, IH. cbn [length]. lia.
Qed.

Lemma octet_bits_inj : forall d d' u u', bytes_ok d = true -> bytes_ok d' = true ->
  length d = length d' -> octet_bits d ++ u = octet_bits d' ++ u' -> d = d'.
Proof.
  induction d as [|x d IH]; intros [|y d'] u u' Hd Hd' L E; try discriminate; [reflexivity|].
  unfold octet_bits in E. cbn [map concat] in E. rewrite <- !app_assoc in E.
  cbn [bytes_ok forallb] in Hd, Hd'. apply andb_true_iff in Hd, Hd'.
  destruct Hd as [Hx Hd], Hd' as [Hy Hd'].
  assert (E1 : bits 8 x = bits 8 y).
  { apply (f_equal (firstn 8)) in E. exact E. }
  assert (E2 : octet_bits d ++ u = octet_bits d' ++ u').
  { apply (f_equal (skipn 8)) in E. exact E. }
  unfold byte_ok in Hx, Hy. f_equal.
  - apply (bits_inj 8); [change (2 ^ Z.of_nat 8) with 256; lia..|exact E1].
  - eapply IH; eauto.
Qed.

(** ** The alphabet *)
Lemma b64_char_nth : forall i, (i < 64)%nat -> nth_error alphabet i = Some (b64_char (Z.of_nat i)).
Proof.
  assert (H : forallb (fun i => match nth_error alphabet i with
                                | Some c => c =? b64_char (Z.of_nat i) | None => false end) (seq 0 64) = true)
    by (vm_compute; reflexivity).
  rewrite forallb_forall in H. intros i Hi. specialize (H i). rewrite in_seq in H.
  specialize (H ltac:(lia)). destruct (nth_error alphabet i); [|discriminate]. f_equal. lia.
Qed.

Lemma b64_val_char : forall v, 0 <= v < 64 -> b64_val (b64_char v) = Some v.
Proof.
  assert (H : forallb (fun i => match b64_val (b64_char (Z.of_nat i)) with
                                | Some c => c =? Z.of_nat i | None => false end) (seq 0 64) = true)
    by (vm_compute; reflexivity).
  rewrite forallb_forall in H. intros v Hv. specialize (H (Z.to_nat v)). rewrite in_seq in H.
  specialize (H ltac:(lia)). rewrite Z2Nat.id in H by lia. destruct (b64_val (b64_char v)); [|discriminate]. f_equal. lia.
Qed.

Lemma b64_val_some : forall c v, b64_val c = Some v -> 0 <= v < 64 /\ c = b64_char v.
Proof.
  unfold b64_val, b64_char. intros c v.
  destruct ((65 <=? c) && (c <=? 90)) eqn:A; [|destruct ((97 <=? c) && (c <=? 122)) eqn:B; [|
    destruct ((48 <=? c) && (c <=? 57)) eqn:C; [|destruct (c =? 43) eqn:D; [|
      destruct (c =? 47) eqn:F; [|discriminate]]]]]; intros H; injection H as <-.
  - destruct (c - 65 <? 26) eqn:?; lia.
  - destruct (c - 97 + 26 <? 26) eqn:?; destruct (c - 97 + 26 <? 52) eqn:?; lia.
  - destruct (c - 48 + 52 <? 26) eqn:?; destruct (c - 48 + 52 <? 52) eqn:?; destruct (c - 48 + 52 <? 62) eqn:?; lia.
  - cbn. lia.
  - cbn. lia.
Qed.

Lemma b64_val_nth : forall c v, b64_val c = Some v ->
  0 <= v < 64 /\ nth_error alphabet (Z.to_nat v) = Some c.
Proof.
  intros c v H. apply b64_val_some in H. destruct H as [Hv ->]. split; [exact Hv|].
  rewrite b64_char_nth by lia. now rewrite Z2Nat.id by lia.
Qed.

Lemma nth_alphabet_lt : forall i c, nth_error alphabet i = Some c -> (i < 64)%nat.
Proof.
  intros i c H. assert (L : (i < length alphabet)%nat) by (apply nth_error_Some; congruence). exact L.
Qed.

Lemma nth_b64_val : forall i c, nth_error alphabet i = Some c -> b64_val c = Some (Z.of_nat i).
Proof.
  intros i c H. pose proof (nth_alphabet_lt _ _ H) as L. rewrite b64_char_nth in H by exact L.
  injection H as <-. apply b64_val_char. lia.
Qed.

Lemma b64_val_pad : b64_val pad = None.
Proof. reflexivity. Qed.

(** ** Characters and their bits *)
Definition in_alpha (c : Z) : Prop := b64_val c <> None.

Lemma chars_bits_cons : forall c cs bs v, b64_val c = Some v -> chars_bits cs bs ->
  chars_bits (c :: cs) (bits 6 v ++ bs).
Proof.
  intros c cs bs v H K. apply b64_val_nth in H. destruct H as [Hv H].
  rewrite <- (Z2Nat.id v) by lia. constructor; auto.
Qed.

Lemma chars_bits_alpha : forall cs bs, chars_bits cs bs -> Forall in_alpha cs.
Proof.
  induction 1; constructor; auto. unfold in_alpha. erewrite nth_b64_val by eassumption. congruence.
Qed.

Lemma chars_bits_fun : forall cs bs, chars_bits cs bs -> forall bs', chars_bits cs bs' -> bs = bs'.
Proof.
  induction 1 as [|c cs i bs N K IH]; intros bs' H'; inversion H'; subst; [reflexivity|].
  apply nth_b64_val in N. match goal with H : nth_error _ _ = Some c |- _ => apply nth_b64_val in H; rewrite N in H end.
  f_equal; [congruence|auto].
Qed.

Lemma chars_bits_length : forall cs bs, chars_bits cs bs -> length bs = (6 * length cs)%nat.
Proof.
  induction 1; [reflexivity|]. rewrite app_length, bits_length, IHchars_bits. cbn [length]. lia.
Qed.

(** ** Decoding *)
Lemma quad_bits : forall a b c d, 0 <= a < 64 -> 0 <= b < 64 -> 0 <= c < 64 -> 0 <= d < 64 ->
  bits 6 a ++ bits 6 b ++ bits 6 c ++ bits 6 d =
  bits 8 (a * 4 + b / 16) ++ bits 8 (b mod 16 * 16 + c / 4) ++ bits 8 (c mod 4 * 64 + d).
Proof.
  intros a b c d Ha Hb Hc Hd.
  change (bits 8 (a * 4 + b / 16)) with (bits (6 + 2) (a * 2 ^ Z.of_nat 2 + b / 16)).
  change (bits 8 (b mod 16 * 16 + c / 4)) with (bits (4 + 4) (b mod 16 * 2 ^ Z.of_nat 4 + c / 4)).
  change (bits 8 (c mod 4 * 64 + d)) with (bits (2 + 6) (c mod 4 * 2 ^ Z.of_nat 6 + d)).
  assert (B1 : 0 <= b / 16 < 4) by (split; [apply Z.div_pos|apply Z.div_lt_upper_bound]; lia).
  assert (B2 : 0 <= c / 4 < 16) by (split; [apply Z.div_pos|apply Z.div_lt_upper_bound]; lia).
  assert (B3 : 0 <= b mod 16 < 16) by (apply Z.mod_pos_bound; lia).
  assert (B4 : 0 <= c mod 4 < 4) by (apply Z.mod_pos_bound; lia).
  rewrite !bits_app by (cbn; lia).
  assert (Eb : bits 6 b = bits 2 (b / 16) ++ bits 4 (b mod 16)).
  { rewrite <- (bits_app 2 4) by (cbn; lia). f_equal. change (2 ^ Z.of_nat 4) with 16.
    pose proof (Z.div_mod b 16). lia. }
  assert (Ec : bits 6 c = bits 4 (c / 4) ++ bits 2 (c mod 4)).
  { rewrite <- (bits_app 4 2) by (cbn; lia). f_equal. change (2 ^ Z.of_nat 2) with 4.
    pose proof (Z.div_mod c 4). lia. }
  rewrite Eb, Ec. now rewrite <- !app_assoc.
Qed.

Lemma quad_bytes : forall a b c d, 0 <= a < 64 -> 0 <= b < 64 -> 0 <= c < 64 -> 0 <= d < 64 ->
  byte_ok (a * 4 + b / 16) = true /\ byte_ok (b mod 16 * 16 + c / 4) = true /\
  byte_ok (c mod 4 * 64 + d) = true.
Proof.
  intros a b c d Ha Hb Hc Hd. unfold byte_ok.
  assert (B1 : 0 <= b / 16 < 4) by (split; [apply Z.div_pos|apply Z.div_lt_upper_bound]; lia).
  assert (B2 : 0 <= c / 4 < 16) by (split; [apply Z.div_pos|apply Z.div_lt_upper_bound]; lia).
  assert (B3 : 0 <= b mod 16 < 16) by (apply Z.mod_pos_bound; lia).
  assert (B4 : 0 <= c mod 4 < 4) by (apply Z.mod_pos_bound; lia).
  repeat split; lia.
Qed.

(** Induction by groups of four. *)
Lemma list_ind4 : forall (P : bytes -> Prop),
  P [] -> (forall a, P [a]) -> (forall a b, P [a; b]) -> (forall a b c, P [a; b; c]) ->
  (forall a b c d l, P l -> P (a :: b :: c :: d :: l)) -> forall l, P l.
Proof.
  intros P H0 H1 H2 H3 H4.
  fix IH 1. intros [|a [|b [|c [|d l]]]]; [apply H0|apply H1|apply H2|apply H3|apply H4, IH].
Qed.

Lemma isnil : forall A (r : list A), (match r with [] => true | _ => false end) = true -> r = [].
Proof. now destruct r. Qed.

Lemma b64_groups_text : forall t d, b64_groups t = Some d -> b64_text t d.
Proof.
  induction t as [| | | |w x y z r IH] using list_ind4; intros e H; try discriminate.
  - injection H as <-. exists [], 0%nat, [], []. cbn. repeat split; auto. constructor.
  - cbn [b64_groups] in H.
    destruct (b64_val w) as [a|] eqn:Ew; [|discriminate].
    destruct (b64_val x) as [b|] eqn:Ex; [|discriminate].
    destruct (b64_val_nth _ _ Ew) as [Ra _]. destruct (b64_val_nth _ _ Ex) as [Rb _].
    destruct (b64_val y) as [c|] eqn:Ey.
    + destruct (b64_val_nth _ _ Ey) as [Rc _].
      destruct (b64_val z) as [d|] eqn:Ez.
      * destruct (b64_val_nth _ _ Ez) as [Rd _].
        destruct (b64_groups r) as [t|] eqn:Er; [|discriminate]. injection H as <-.
        destruct (IH _ eq_refl) as (cs & k & un & bs & -> & Hk & Hl & Hc & Hok & -> & Hu).
        exists (w :: x :: y :: z :: cs), k, un,
          (bits 6 a ++ bits 6 b ++ bits 6 c ++ bits 6 d ++ octet_bits t ++ un).
        split; [reflexivity|]. split; [exact Hk|]. split.
        { change (length (w :: x :: y :: z :: cs ++ repeat 61 k)) with (4 + length (cs ++ repeat 61%Z k))%nat.
          rewrite Nat.add_mod, Hl by lia. reflexivity. }
        split; [repeat apply chars_bits_cons; auto|].
        destruct (quad_bytes a b c d Ra Rb Rc Rd) as (O1 & O2 & O3).
        split; [cbn [bytes_ok forallb]; rewrite O1, O2, O3; exact Hok|].
        split; [|exact Hu].
        unfold octet_bits. cbn [map concat]. rewrite !app_assoc.
        rewrite <- (app_assoc (bits 6 a)), <- (app_assoc (bits 6 a)).
        rewrite <- (app_assoc (bits 6 b)), (quad_bits a b c d) by assumption.
        now rewrite <- !app_assoc.
      * destruct (z =? pad) eqn:Ep; [|discriminate]. cbn [andb] in H.
        destruct r as [|? ?]; [|discriminate]. injection H as <-.
        apply Z.eqb_eq in Ep. subst z.
        destruct (quad_bytes a b c 0 Ra Rb Rc ltac:(lia)) as (O1 & O2 & _).
        exists [w; x; y], 1%nat, (bits 2 (c mod 4)), (bits 6 a ++ bits 6 b ++ bits 6 c ++ []).
        split; [reflexivity|]. split; [lia|]. split; [reflexivity|].
        split; [repeat apply chars_bits_cons; auto; constructor|].
        split; [cbn [bytes_ok forallb]; now rewrite O1, O2|].
        split; [|apply bits_length].
        unfold octet_bits. cbn [map concat]. rewrite !app_nil_r, <- app_assoc.
        apply (app_inv_tail (bits 6 0)). rewrite <- !app_assoc.
        rewrite (quad_bits a b c 0) by lia. do 2 f_equal.
        assert (B4 : 0 <= c mod 4 < 4) by (apply Z.mod_pos_bound; lia).
        exact (bits_app 2 6 (c mod 4) 0 ltac:(cbn; lia)).
    + destruct ((y =? pad) && (z =? pad)) eqn:Ep; [|discriminate]. cbn [andb] in H.
      destruct r as [|? ?]; [|discriminate]. injection H as <-.
      apply andb_true_iff in Ep. destruct Ep as [Ep Eq]. apply Z.eqb_eq in Ep, Eq. subst y z.
      destruct (quad_bytes a b 0 0 Ra Rb ltac:(lia) ltac:(lia)) as (O1 & _ & _).
      exists [w; x], 2%nat, (bits 4 (b mod 16)), (bits 6 a ++ bits 6 b ++ []).
      split; [reflexivity|]. split; [lia|]. split; [reflexivity|].
      split; [repeat apply chars_bits_cons; auto; constructor|].
      split; [cbn [bytes_ok forallb]; now rewrite O1|].
      split; [|apply bits_length].
      unfold octet_bits. cbn [map concat]. rewrite !app_nil_r.
      apply (app_inv_tail (bits 6 0 ++ bits 6 0)). rewrite <- !app_assoc.
      rewrite (quad_bits a b 0 0) by lia. f_equal.
      assert (B4 : 0 <= b mod 16 < 16) by (apply Z.mod_pos_bound; lia).
      change (0 / 4) with 0. change (0 mod 4 * 64 + 0) with 0.
      change (bits 8 (b mod 16 * 16 + 0)) with (bits (4 + 4) (b mod 16 * 2 ^ Z.of_nat 4 + 0)).
      rewrite bits_app by (cbn; lia). rewrite <- app_assoc. reflexivity.
Qed.

Lemma pad_split : forall cs cs' k k', Forall in_alpha cs -> Forall in_alpha cs' ->
  cs ++ repeat 61 k = cs' ++ repeat 61 k' -> cs = cs' /\ k = k'.
Proof.
  induction cs as [|c cs IH]; intros [|c' cs'] k k' H H' E.
  - split; auto. apply (f_equal (@length Z)) in E. rewrite !app_length, !repeat_length in E. cbn in E. lia.
  - exfalso. inversion H'; subst. destruct k; cbn in E; [discriminate|]. injection E as E _. subst c'.
    now apply H2.
  - exfalso. inversion H; subst. destruct k'; cbn in E; [discriminate|]. injection E as E _. subst c.
    now apply H2.
  - cbn [app] in E. injection E as -> E. inversion H; inversion H'; subst.
    destruct (IH cs' k k') as [-> ->]; auto.
Qed.

Lemma b64_text_fun : forall t d d', b64_text t d -> b64_text t d' -> d = d'.
Proof.
  intros t d d' (cs & k & u & bs & Et & Hk & Hl & Hc & Hok & Eb & Hu)
    (cs' & k' & u' & bs' & Et' & Hk' & Hl' & Hc' & Hok' & Eb' & Hu').
  rewrite Et in Et'. apply pad_split in Et'; [|eapply chars_bits_alpha; eassumption..].
  destruct Et' as [<- <-]. pose proof (chars_bits_fun _ _ Hc _ Hc') as <-.
  rewrite Eb in Eb'. eapply octet_bits_inj; eauto.
  apply (f_equal (@length bool)) in Eb'. rewrite !app_length, !octet_bits_length in Eb'. lia.
Qed.

Lemma b64_groups_total : forall (cs : bytes) k, Forall in_alpha cs -> (k <= 2)%nat ->
  (length (cs ++ repeat 61%Z k) mod 4 = 0)%nat -> b64_groups (cs ++ repeat 61 k) <> None.
Proof.
  induction cs as [|a|a b|a b c|a b c d l IH] using list_ind4; intros k HF Hk HL.
  - destruct k as [|[|[|k]]]; cbn in *; try lia; congruence.
  - destruct k as [|[|[|k]]]; cbn in *; try lia; congruence.
  - inversion HF as [|? ? Ha HF']; subst. inversion HF' as [|? ? Hb _]; subst. unfold in_alpha in *.
    destruct k as [|[|[|k]]]; cbn in HL; try lia.
    cbn [app repeat b64_groups]. destruct (b64_val a); [|congruence]. destruct (b64_val b); [|congruence].
    cbn. congruence.
  - inversion HF as [|? ? Ha HF']; subst. inversion HF' as [|? ? Hb HF'']; subst.
    inversion HF'' as [|? ? Hc _]; subst. unfold in_alpha in *.
    destruct k as [|[|[|k]]]; cbn in HL; try lia.
    cbn [app repeat b64_groups]. destruct (b64_val a); [|congruence]. destruct (b64_val b); [|congruence].
    destruct (b64_val c); [|congruence]. cbn. congruence.
  - inversion HF as [|? ? Ha HF1]; subst. inversion HF1 as [|? ? Hb HF2]; subst.
    inversion HF2 as [|? ? Hc HF3]; subst. inversion HF3 as [|? ? Hd HF4]; subst. unfold in_alpha in *.
    cbn [app b64_groups]. destruct (b64_val a); [|congruence]. destruct (b64_val b); [|congruence].
    destruct (b64_val c); [|congruence]. destruct (b64_val d); [|congruence].
    specialize (IH k HF4 Hk).
    destruct (b64_groups (l ++ repeat 61 k)); [congruence|]. apply IH.
    change (length ((a :: b :: c :: d :: l) ++ repeat 61 k)) with (4 + length (l ++ repeat 61%Z k))%nat in HL.
    replace (4 + length (l ++ repeat 61%Z k))%nat with (length (l ++ repeat 61%Z k) + 1 * 4)%nat in HL by lia.
    now rewrite Nat.mod_add in HL by lia.
Qed.

Theorem b64_groups_iff : forall t d, b64_groups t = Some d <-> b64_text t d.
Proof.
  intros t d. split; [apply b64_groups_text|]. intros H.
  pose proof H as (cs & k & u & bs & Et & Hk & Hl & Hc & _).
  pose proof (b64_groups_total cs k (chars_bits_alpha _ _ Hc) Hk) as T. rewrite <- Et in T.
  specialize (T Hl). destruct (b64_groups t) as [d'|] eqn:E; [|congruence].
  apply b64_groups_text in E. f_equal. eapply b64_text_fun; eauto.
Qed.

Lemma filter_filter : forall A (f g : A -> bool) l,
  filter f (filter g l) = filter (fun x => g x && f x) l.
Proof.
  induction l as [|x l IH]; [reflexivity|]. cbn [filter].
  destruct (g x) eqn:G; cbn [andb filter]; [destruct (f x)|]; now rewrite IH.
Qed.

Theorem decode_rrdp_base64_exact : forall value d,
  decode_rrdp_base64 value = Some d <-> b64_text (strip value) d.
Proof.
  intros value d. unfold decode_rrdp_base64, b64_decode. rewrite !filter_filter, b64_groups_iff.
  replace (filter _ value) with (strip value); [reflexivity|].
  unfold strip. apply filter_ext. intros c. unfold not_crlf.
  destruct (c =? 32), (c =? 10), (c =? 13); reflexivity.
Qed.

(** ** Encoding *)
Lemma list_ind3 : forall (P : bytes -> Prop),
  P [] -> (forall a, P [a]) -> (forall a b, P [a; b]) ->
  (forall a b c l, P l -> P (a :: b :: c :: l)) -> forall l, P l.
Proof. intros P H0 H1 H2 H3. fix IH 1. intros [|a [|b [|c l]]]; [apply H0|apply H1|apply H2|apply H3, IH]. Qed.

Lemma bytes_ok_cons : forall x l, bytes_ok (x :: l) = true <-> 0 <= x < 256 /\ bytes_ok l = true.
Proof. intros. cbn [bytes_ok forallb]. rewrite andb_true_iff. unfold byte_ok. split; intros [A B]; split; auto; lia. Qed.

Lemma triple_sextets : forall a b c, 0 <= a < 256 -> 0 <= b < 256 -> 0 <= c < 256 ->
  0 <= a / 4 < 64 /\ 0 <= a mod 4 * 16 + b / 16 < 64 /\ 0 <= b mod 16 * 4 + c / 64 < 64 /\ 0 <= c mod 64 < 64.
Proof.
  intros a b c Ha Hb Hc.
  assert (0 <= a / 4 < 64) by (split; [apply Z.div_pos|apply Z.div_lt_upper_bound]; lia).
  assert (0 <= b / 16 < 16) by (split; [apply Z.div_pos|apply Z.div_lt_upper_bound]; lia).
  assert (0 <= c / 64 < 4) by (split; [apply Z.div_pos|apply Z.div_lt_upper_bound]; lia).
  pose proof (Z.mod_pos_bound a 4 ltac:(lia)). pose proof (Z.mod_pos_bound b 16 ltac:(lia)).
  pose proof (Z.mod_pos_bound c 64 ltac:(lia)). lia.
Qed.

Lemma b64_raw_alpha : forall d, bytes_ok d = true -> Forall in_alpha (b64_raw d).
Proof.
  assert (C : forall v, 0 <= v < 64 -> in_alpha (b64_char v))
    by (intros v Hv; unfold in_alpha; rewrite b64_val_char by exact Hv; congruence).
  induction d as [|a|a b|a b c l IH] using list_ind3; intros H; rewrite ?bytes_ok_cons in H; cbn [b64_raw].
  - constructor.
  - destruct H as [Ha _]. destruct (triple_sextets a 0 0 Ha) as (? & ? & ? & ?); [lia..|].
    change (0 / 16) with 0 in *. rewrite Z.add_0_r in *. repeat constructor; auto.
  - destruct H as [Ha [Hb _]]. destruct (triple_sextets a b 0 Ha Hb) as (? & ? & ? & ?); [lia..|].
    change (0 / 64) with 0 in *. rewrite (Z.add_0_r (b mod 16 * 4)) in *. repeat constructor; auto.
  - destruct H as [Ha [Hb [Hc Hl]]]. destruct (triple_sextets a b c Ha Hb Hc) as (? & ? & ? & ?).
    repeat constructor; auto.
Qed.

Lemma b64_raw_length : forall d,
  length (b64_raw d) = (4 * (length d / 3) + (match length d mod 3 with O => 0 | 1 => 2 | _ => 3 end))%nat.
Proof.
  induction d as [|a|a b|a b c l IH] using list_ind3; try reflexivity.
  cbn [b64_raw length].
  replace (S (S (S (length l)))) with (length l + 1 * 3)%nat by lia.
  rewrite Nat.div_add, Nat.mod_add by lia. rewrite IH. lia.
Qed.

Lemma group3 : forall a b c, 0 <= a < 256 -> 0 <= b < 256 -> 0 <= c < 256 ->
  a / 4 * 4 + (a mod 4 * 16 + b / 16) / 16 = a /\
  (a mod 4 * 16 + b / 16) mod 16 * 16 + (b mod 16 * 4 + c / 64) / 4 = b /\
  (b mod 16 * 4 + c / 64) mod 4 * 64 + c mod 64 = c.
Proof.
  intros a b c Ha Hb Hc.
  assert (0 <= b / 16 < 16) by (split; [apply Z.div_pos|apply Z.div_lt_upper_bound]; lia).
  assert (0 <= c / 64 < 4) by (split; [apply Z.div_pos|apply Z.div_lt_upper_bound]; lia).
  rewrite !Z.div_add_l by lia. rewrite (Z.div_small (b / 16)), (Z.div_small (c / 64)) by lia.
  rewrite (Z.add_comm (a mod 4 * 16)), (Z.add_comm (b mod 16 * 4)), !Z_mod_plus_full.
  rewrite (Z.mod_small (b / 16)), (Z.mod_small (c / 64)) by lia.
  pose proof (Z.div_mod a 4). pose proof (Z.div_mod b 16). pose proof (Z.div_mod c 64). lia.
Qed.

Lemma b64_raw_groups : forall d, bytes_ok d = true -> (length d mod 3 = 0)%nat ->
  b64_groups (b64_raw d) = Some d.
Proof.
  induction d as [|a|a b|a b c l IH] using list_ind3; intros H L; try discriminate L; [reflexivity|].
  rewrite !bytes_ok_cons in H. destruct H as [Ha [Hb [Hc Hl]]].
  destruct (triple_sextets a b c Ha Hb Hc) as (? & ? & ? & ?).
  cbn [b64_raw b64_groups]. rewrite !b64_val_char by assumption.
  rewrite IH; [|exact Hl|].
  - destruct (group3 a b c Ha Hb Hc) as (-> & -> & ->). reflexivity.
  - cbn [length] in L. replace (S (S (S (length l)))) with (length l + 1 * 3)%nat in L by lia.
    now rewrite Nat.mod_add in L by lia.
Qed.

Lemma b64_groups_length : forall t d, b64_groups t = Some d -> (length t mod 4 = 0)%nat.
Proof. intros t d H. apply b64_groups_text in H. now destruct H as (? & ? & ? & ? & -> & ? & ? & _). Qed.

Lemma b64_raw_fails : forall d, (length d mod 3 <> 0)%nat -> b64_groups (b64_raw d) = None.
Proof.
  intros d H. destruct (b64_groups (b64_raw d)) as [e|] eqn:E; [|reflexivity].
  apply b64_groups_length in E. rewrite b64_raw_length in E.
  pose proof (Nat.mod_upper_bound (length d) 3). exfalso.
  rewrite Nat.mul_comm, Nat.add_comm, Nat.mod_add in E by lia.
  destruct (length d mod 3)%nat as [|[|[|?]]]; cbn in E; lia.
Qed.

Lemma alpha_not_crlf : forall t, Forall in_alpha t -> filter not_crlf t = t.
Proof.
  induction 1 as [|c l H _ IH]; [reflexivity|]. cbn [filter].
  replace (not_crlf c) with true; [now rewrite IH|].
  unfold in_alpha in H. unfold not_crlf. destruct (c =? 10) eqn:A.
  - apply Z.eqb_eq in A. subst c. now exfalso.
  - destruct (c =? 13) eqn:B; [|reflexivity]. apply Z.eqb_eq in B. subst c. now exfalso.
Qed.
