From Coq Require Import Lia ZifyBool ZifyNat Permutation.
From Verif.Model Require Import Base NetIP CertRes Roa.
From Verif.Spec Require Import Addr Resources Bits.
From Verif.Proofs Require Import NetIPProofs CertProofs.
Ltac Zify.zify_post_hook ::= Z.div_mod_to_equations.

Lemma fam_octets_size fam n : fam_octets fam n -> family_size fam = Some n.
Proof. intros [[-> (a & r & ->)]|[-> (a & r & ->)]]; reflexivity. Qed.

Lemma copy_into_short n src : (length src <= n)%nat ->
  copy_into n src = src ++ repeat 0 (n - length src).
Proof.
  intros H. unfold copy_into. rewrite firstn_app. rewrite firstn_all2 by lia. f_equal.
  rewrite <- (firstn_skipn (n - length src) (repeat 0 n)) at 1.
  assert (G : forall k m, (k <= m)%nat -> firstn k (repeat 0 m) = repeat 0 k).
  { induction k as [|k IH]; intros [|m] Hk; cbn; try reflexivity; [lia|]. rewrite IH by lia. reflexivity. }
  rewrite firstn_skipn. apply G. lia.
Qed.

Lemma copy_into_length n src : length (copy_into n src) = n.
Proof. unfold copy_into. rewrite firstn_length, app_length, repeat_length. lia. Qed.

Lemma copy_into_ok n src : bytes_ok src = true -> bytes_ok (copy_into n src) = true.
Proof. intros H. unfold copy_into. apply bytes_ok_firstn. apply bytes_ok_app. split; [exact H|apply bytes_ok_repeat0]. Qed.

(** value of the copied bits *)
Lemma copied_bits_val n b : wf_bits b -> bs_len b <= 8 * Z.of_nat n ->
  bval (copy_into n (bs_bytes b)) = bits_val b * 2 ^ (8 * Z.of_nat n - bs_len b).
Proof.
  intros (Hok & H0 & Hlen & Hpad) Hb. unfold bits_val. rewrite !addr_val_bval in *.
  set (L := Z.of_nat (length (bs_bytes b))) in *.
  rewrite copy_into_short by lia. rewrite bval_app, bval_repeat0, repeat_length, Z.add_0_r.
  rewrite pow256. replace (8 * Z.of_nat (n - length (bs_bytes b))) with (8 * Z.of_nat n - 8 * L) by lia.
  replace (8 * Z.of_nat n - bs_len b) with ((8 * L - bs_len b) + (8 * Z.of_nat n - 8 * L)) by lia.
  rewrite Z.pow_add_r by lia.
  assert (0 < 2 ^ (8 * L - bs_len b)) by (apply Z.pow_pos_nonneg; lia).
  pose proof (Z.div_mod (bval (bs_bytes b)) (2 ^ (8 * L - bs_len b)) ltac:(lia)) as D.
  rewrite Hpad in D. nia.
Qed.

Lemma first_addr_mult w p N : 0 <= p <= w -> first_addr w p (N * 2 ^ (w - p)) = N * 2 ^ (w - p).
Proof.
  intros Hp. unfold first_addr. rewrite Z.mod_mul; [lia|]. apply Z.pow_nonzero; lia.
Qed.

(** * C16: prefixes *)
Lemma decode_ip_spec fam n b : fam_octets fam n -> wf_bits b -> bs_len b <= 8 * Z.of_nat n ->
  exists net, decode_ip fam b = Some net /\
    length (nip net) = n /\ bytes_ok (nip net) = true /\
    nmask net = cidr_mask (bs_len b) (8 * Z.of_nat n) /\
    addr_val (nip net) = bits_val b * 2 ^ (8 * Z.of_nat n - bs_len b).
Proof.
  intros Hf Hb Hl. unfold decode_ip. rewrite (fam_octets_size _ _ Hf).
  eexists. split; [reflexivity|]. cbn [nip nmask]. rewrite copy_into_length, addr_val_bval.
  rewrite copied_bits_val by assumption. repeat split; auto. apply copy_into_ok. apply Hb.
Qed.

Lemma fam_len fam n : fam_octets fam n -> (n = 4 \/ n = 16)%nat.
Proof. intros [[-> _]|[-> _]]; auto. Qed.

Lemma decode_ip_denotes fam n b : fam_octets fam n -> wf_bits b -> bs_len b <= 8 * Z.of_nat n ->
  (n = 16%nat -> ~ v4mapped (bits_val b * 2 ^ (128 - bs_len b))) ->
  denotes (INet (decode_ip fam b)) n
    (bits_val b * 2 ^ (8 * Z.of_nat n - bs_len b))
    ((bits_val b + 1) * 2 ^ (8 * Z.of_nat n - bs_len b) - 1).
Proof.
  intros Hf Hb Hl Hm. destruct (decode_ip_spec fam n b Hf Hb Hl) as (net & E & L & O & M & V).
  rewrite E. destruct net as [ip m]. cbn [nip nmask] in *. subst m.
  pose proof (fam_len _ _ Hf) as Hn.
  assert (Hp0 : 0 <= bs_len b) by apply Hb.
  assert (P : plain_addr ip).
  { split; [exact O|]. split; [lia|]. intros H16. rewrite V. rewrite <- L in *. rewrite H16 in *. apply Hm. reflexivity. }
  assert (Q : 0 <= bs_len b <= addr_bits ip) by (unfold addr_bits; lia).
  pose proof (den_prefix ip (bs_len b) P Q) as D. unfold addr_bits in D. rewrite L in D.
  unfold last_addr in D. rewrite V in D. rewrite first_addr_mult in D by lia.
  replace ((bits_val b + 1) * 2 ^ (8 * Z.of_nat n - bs_len b) - 1)
    with (bits_val b * 2 ^ (8 * Z.of_nat n - bs_len b) + 2 ^ (8 * Z.of_nat n - bs_len b) - 1) by lia.
  exact D.
Qed.

(** * C16: range bounds *)
Lemma fill_ones_all l : forall i bl, bl / 8 < i -> bval (fill_ones i bl l) = 256 ^ Z.of_nat (length l) - 1.
Proof.
  induction l as [|b l IH]; intros i bl H; cbn [fill_ones bval length]; [reflexivity|].
  destruct (bl / 8 <? i) eqn:E; [|lia]. rewrite IH by lia.
  assert (Hlen : forall j, length (fill_ones j bl l) = length l).
  { clear. induction l as [|x l IH]; intros j; cbn; [reflexivity|]. rewrite IH. reflexivity. }
  rewrite Hlen. rewrite Nat2Z.inj_succ, Z.pow_succ_r by lia. lia.
Qed.

Lemma fill_ones_length l : forall i bl, length (fill_ones i bl l) = length l.
Proof. induction l as [|x l IH]; intros i bl; cbn; [reflexivity|]. rewrite IH. reflexivity. Qed.

Lemma fill_ones_bval l : forall i bl, bytes_ok l = true -> 8 * i <= bl <= 8 * i + 8 * Z.of_nat (length l) ->
  let q := 2 ^ (8 * i + 8 * Z.of_nat (length l) - bl) in
  bval (fill_ones i bl l) = bval l - bval l mod q + q - 1.
Proof.
  induction l as [|b l IH]; intros i bl Hok Hbl.
  - cbn [length Z.of_nat] in *. cbn [fill_ones bval]. cbv zeta.
    replace (8 * i + 8 * 0 - bl) with 0 by lia. reflexivity.
  - apply bytes_ok_cons in Hok as [Hb Hok]. cbn [length] in *. cbn [fill_ones bval].
    rewrite fill_ones_length. set (k := Z.of_nat (length l)) in *.
    assert (Hk0 : 0 <= k) by lia.
    assert (Hpk : 256 ^ k = 2 ^ (8 * k)) by (subst k; apply pow256).
    pose proof (bval_bound l Hok) as Hv. fold k in Hv.
    assert (Hkpos : 0 < 256 ^ k) by lia.
    assert (Hs : Z.of_nat (S (length l)) = 1 + k) by lia. rewrite Hs in *.
    destruct (bl / 8 <? i) eqn:E1; [lia|].
    destruct (i =? bl / 8) eqn:E2.
    + rewrite fill_ones_all by lia. fold k.
      set (p := bl - 8 * i) in *.
      replace (8 - (8 * (bl / 8 + 1) - bl)) with p by lia.
      replace (8 * i + 8 * (1 + k) - bl) with ((8 - p) + 8 * k) by lia.
      rewrite Z.pow_add_r by lia. rewrite <- Hpk.
      assert (Hq : 0 < 2 ^ (8 - p)) by (apply Z.pow_pos_nonneg; lia).
      rewrite mod_split by lia.
      destruct (mask_byte_facts b p Hb ltac:(lia)) as (_ & _ & M). rewrite M. nia.
    + rewrite IH by (auto; lia). cbv zeta.
      replace (8 * (i + 1) + 8 * k - bl) with (8 * i + 8 * (1 + k) - bl) by lia.
      rewrite mod_high; [lia| | lia |].
      * apply Z.pow_pos_nonneg; lia.
      * rewrite Hpk. apply pow2_mod. lia.
Qed.

Lemma fill_ones_ok l : forall i bl, bytes_ok l = true -> 0 <= bl -> bytes_ok (fill_ones i bl l) = true.
Proof.
  induction l as [|b l IH]; intros i bl Hok Hbl; [reflexivity|].
  apply bytes_ok_cons in Hok as [Hb Hok]. cbn [fill_ones]. apply bytes_ok_cons. split; [|auto].
  destruct (bl / 8 <? i); [lia|]. destruct (i =? bl / 8); [|lia].
  set (p := 8 - (8 * (bl / 8 + 1) - bl)). assert (Hp : 0 <= p <= 7) by (subst p; lia).
  destruct (mask_byte_facts b p Hb ltac:(lia)) as (_ & _ & M). rewrite M.
  assert (Hq : 0 < 2 ^ (8 - p)) by (apply Z.pow_pos_nonneg; lia).
  assert (Hq2 : 2 ^ 8 = 2 ^ (8 - p) * 2 ^ p) by (rewrite <- Z.pow_add_r by lia; f_equal; lia).
  change (2 ^ 8) with 256 in Hq2.
  assert (Hp2 : 0 < 2 ^ p) by (apply Z.pow_pos_nonneg; lia).
  pose proof (Z.mod_pos_bound b (2 ^ (8 - p)) Hq) as Hm.
  pose proof (Z.div_mod b (2 ^ (8 - p)) ltac:(lia)) as Hdm.
  assert (Hbq : b / 2 ^ (8 - p) < 2 ^ p) by (apply Z.div_lt_upper_bound; lia).
  nia.
Qed.

Lemma decode_min_spec fam n b : fam_octets fam n -> wf_bits b -> bs_len b <= 8 * Z.of_nat n ->
  exists a, decode_ip_minmax fam b false = Some a /\ length a = n /\ bytes_ok a = true /\
    addr_val a = bits_val b * 2 ^ (8 * Z.of_nat n - bs_len b).
Proof.
  intros Hf Hb Hl. unfold decode_ip_minmax. rewrite (fam_octets_size _ _ Hf).
  eexists. split; [reflexivity|]. rewrite copy_into_length, addr_val_bval, copied_bits_val by assumption.
  repeat split; auto. apply copy_into_ok, Hb.
Qed.

Lemma decode_max_spec fam n b : fam_octets fam n -> wf_bits b -> bs_len b <= 8 * Z.of_nat n ->
  exists a, decode_ip_minmax fam b true = Some a /\ length a = n /\ bytes_ok a = true /\
    addr_val a = (bits_val b + 1) * 2 ^ (8 * Z.of_nat n - bs_len b) - 1.
Proof.
  intros Hf Hb Hl. unfold decode_ip_minmax. rewrite (fam_octets_size _ _ Hf).
  destruct (Z.of_nat n <? bs_len b / 8) eqn:E; [lia|].
  pose proof (copy_into_ok n (bs_bytes b) ltac:(apply Hb)) as O.
  assert (H0 : 0 <= bs_len b) by apply Hb.
  eexists. split; [reflexivity|]. rewrite fill_ones_length, copy_into_length, addr_val_bval.
  rewrite fill_ones_bval by (try assumption; rewrite copy_into_length; lia). cbv zeta.
  rewrite copy_into_length, copied_bits_val by assumption.
  replace (8 * 0 + 8 * Z.of_nat n - bs_len b) with (8 * Z.of_nat n - bs_len b) by lia.
  rewrite Z.mod_mul by (apply Z.pow_nonzero; lia).
  repeat split; [apply fill_ones_ok; assumption|lia].
Qed.

Lemma decode_range_denotes fam n b1 b2 : fam_octets fam n -> wf_bits b1 -> wf_bits b2 ->
  bs_len b1 <= 8 * Z.of_nat n -> bs_len b2 <= 8 * Z.of_nat n ->
  let lo := bits_val b1 * 2 ^ (8 * Z.of_nat n - bs_len b1) in
  let hi := (bits_val b2 + 1) * 2 ^ (8 * Z.of_nat n - bs_len b2) - 1 in
  (n = 16%nat -> ~ v4mapped lo /\ ~ v4mapped hi) ->
  exists i, decode_ranges fam [ORange b1 b2] = ([i], true) /\ denotes i n lo hi.
Proof.
  intros Hf H1 H2 L1 L2 lo hi Hm. eexists. cbn [decode_ranges]. split; [reflexivity|].
  destruct (decode_min_spec fam n b1 Hf H1 L1) as (a1 & -> & N1 & O1 & V1).
  destruct (decode_max_spec fam n b2 Hf H2 L2) as (a2 & -> & N2 & O2 & V2).
  cbn [odefault]. subst lo hi. rewrite <- V1, <- V2 in *. rewrite <- N1.
  pose proof (fam_len _ _ Hf) as Hn.
  apply den_range; [| |lia].
  - split; [exact O1|]. split; [lia|]. intros E. apply Hm. lia.
  - split; [exact O2|]. split; [lia|]. intros E. apply Hm. lia.
Qed.

(** A bit string longer than the family is never a usable prefix. *)
Lemma decode_ip_too_long fam n b : fam_octets fam n -> 8 * Z.of_nat n < bs_len b ->
  exists net, decode_ip fam b = Some net /\ nmask net = [].
Proof.
  intros Hf Hl. unfold decode_ip. rewrite (fam_octets_size _ _ Hf). eexists. split; [reflexivity|].
  cbn [nmask]. unfold cidr_mask. destruct (fam_len _ _ Hf) as [-> | ->]; cbn [Z.of_nat Pos.of_succ_nat Pos.succ Z.mul Pos.mul Pos.add] in *;
  match goal with |- context [if negb ?c then _ else _] => change c with true end; cbn [negb];
  match goal with |- (if ?c then _ else _) = _ => destruct c eqn:E2; [reflexivity|lia] end.
Qed.
