From Coq Require Import Lia ZifyBool ZifyNat Permutation.
From Verif.Model Require Import Base NetIP CertRes Roa.
From Verif.Spec Require Import Addr Resources Bits Canon.
From Verif.Proofs Require Import NetIPProofs CertProofs DecodeProofs.
Ltac Zify.zify_post_hook ::= Z.div_mod_to_equations.

(** * IPMask.Size of a CIDR mask *)
Lemma byte_ones_sweep :
  forallb (fun n => let (a, r) := byte_ones 8 (mask_byte n) in
     (a =? n) && (r =? 0) && negb (mask_byte n =? 255)) [0;1;2;3;4;5;6;7] = true.
Proof. vm_compute. reflexivity. Qed.

Lemma byte_ones_mask n : 0 <= n < 8 -> byte_ones 8 (mask_byte n) = (n, 0) /\ mask_byte n <> 255.
Proof.
  intros H. pose proof byte_ones_sweep as S. rewrite forallb_forall in S.
  specialize (S n ltac:(cbn; lia)). destruct (byte_ones 8 (mask_byte n)) as [a r].
  assert (a = n /\ r = 0) as [-> ->] by lia. split; [reflexivity|lia].
Qed.

Lemma cidr_fill0 l : cidr_fill l 0 = repeat 0 l.
Proof. induction l as [|l IH]; [reflexivity|]. cbn [cidr_fill]. cbn [Z.leb Z.compare]. rewrite IH. reflexivity. Qed.

Lemma simple_mask_cidr l : forall p, 0 <= p <= 8 * Z.of_nat l -> simple_mask_length (cidr_fill l p) = p.
Proof.
  induction l as [|l IH]; intros p Hp; [cbn in *; lia|].
  destruct (Z_lt_le_dec p 8) as [Hlt|Hge].
  - rewrite cidr_fill_small by lia. cbn [simple_mask_length].
    destruct (byte_ones_mask p ltac:(lia)) as [E N]. rewrite E.
    destruct (mask_byte p =? 255) eqn:E2; [lia|]. cbn [negb Z.eqb].
    rewrite cidr_fill0.
    assert (F : forallb (Z.eqb 0) (repeat 0 l) = true).
    { clear. induction l as [|l IH]; [reflexivity|]. cbn. exact IH. }
    rewrite F. reflexivity.
  - rewrite cidr_fill_big by lia. cbn [simple_mask_length]. cbn [Z.eqb Pos.eqb].
    rewrite IH by lia. destruct (p - 8 =? -1) eqn:E; lia.
Qed.

Lemma mask_size_cidr n p : (n = 4 \/ n = 16)%nat -> 0 <= p <= 8 * Z.of_nat n ->
  mask_size (cidr_mask p (8 * Z.of_nat n)) = (p, 8 * Z.of_nat n).
Proof.
  intros Hn Hp. rewrite cidr_mask_ok by assumption. unfold mask_size.
  rewrite simple_mask_cidr by lia. rewrite cidr_fill_length. destruct (p =? -1) eqn:E; [lia|reflexivity].
Qed.

(** * IPNetToBitString *)
Lemma prefix_bytes_range ip : forall k m lo hi, range_loop ip m = Some (lo, hi) -> (k <= length ip)%nat ->
  prefix_bytes k ip m = Ret (firstn k lo).
Proof.
  induction ip as [|a ip IH]; intros k m lo hi H Hk; cbn [length] in Hk.
  - assert (k = 0)%nat by lia. subst k. destruct lo; reflexivity.
  - destruct k as [|k]; [destruct lo; reflexivity|].
    cbn [range_loop] in H. destruct m as [|b m]; [discriminate|].
    destruct (range_loop ip m) as [[l h]|] eqn:E; [|discriminate]. injection H as <- <-.
    cbn [prefix_bytes firstn]. rewrite (IH k m l h E) by lia. reflexivity.
Qed.

Lemma bval_0_repeat l : bytes_ok l = true -> bval l = 0 -> l = repeat 0 (length l).
Proof.
  intros H V. apply bval_inj; [rewrite repeat_length; reflexivity|exact H|apply bytes_ok_repeat0|].
  rewrite bval_repeat0. exact V.
Qed.

(** the tail of an address without host bits is zero *)
Lemma tail_zero ip p k : bytes_ok ip = true -> 0 <= p <= 8 * Z.of_nat (length ip) ->
  bval ip mod 2 ^ (8 * Z.of_nat (length ip) - p) = 0 -> p <= 8 * Z.of_nat k -> (k <= length ip)%nat ->
  skipn k ip = repeat 0 (length ip - k).
Proof.
  intros Hok Hp Hm Hk Hkl. rewrite <- (skipn_length k ip).
  pose proof (bytes_ok_skipn k ip Hok) as Os. apply bval_0_repeat; [exact Os|].
  rewrite <- (firstn_skipn k ip) in Hm. rewrite bval_app in Hm.
  rewrite app_length, firstn_length, skipn_length in Hm.
  replace (Nat.min k (length ip) + (length ip - k))%nat with (length ip) in Hm by lia.
  set (w := 8 * Z.of_nat (length ip) - p) in *.
  pose proof (bval_bound _ Os) as B. rewrite skipn_length in B. rewrite pow256 in *.
  set (t := 8 * Z.of_nat (length ip - k)) in *.
  assert (Htw : 0 <= t <= w) by lia.
  assert (Hpw : 0 < 2 ^ w) by (apply Z.pow_pos_nonneg; lia).
  assert (Hpt : 0 < 2 ^ t) by (apply Z.pow_pos_nonneg; lia).
  apply Z.mod_divide in Hm; [|lia]. destruct Hm as [c Hc].
  assert (E : 2 ^ w = 2 ^ (w - t) * 2 ^ t) by (rewrite <- Z.pow_add_r by lia; f_equal; lia).
  rewrite E in Hc.
  assert (bval (skipn k ip) = (c * 2 ^ (w - t) - bval (firstn k ip)) * 2 ^ t) by nia.
  assert (c * 2 ^ (w - t) - bval (firstn k ip) = 0) by nia. nia.
Qed.

Lemma nohost_mod ip p : 0 <= p <= addr_bits ip ->
  addr_val ip = first_addr (addr_bits ip) p (addr_val ip) ->
  bval ip mod 2 ^ (8 * Z.of_nat (length ip) - p) = 0.
Proof. intros Hp H. unfold first_addr, addr_bits in *. rewrite !addr_val_bval in H. lia. Qed.

(** Encoding a prefix without host bits and copying it back is the identity. *)
Lemma ipnet_to_bits_spec ip p :
  plain_addr ip -> 0 <= p <= addr_bits ip -> addr_val ip = first_addr (addr_bits ip) p (addr_val ip) ->
  exists b, ipnet_to_bits (mkNet ip (cidr_mask p (addr_bits ip))) = Ret b /\ bs_len b = p /\
    wf_bits b /\ copy_into (length ip) (bs_bytes b) = ip.
Proof.
  intros (O & F & N) Hp Hh. pose proof (nohost_mod ip p Hp Hh) as Hm. unfold addr_bits in *.
  unfold ipnet_to_bits. cbn [nip nmask]. rewrite mask_size_cidr by auto. cbn [fst].
  set (kz := p / 8 + (if 0 <? p mod 8 then 1 else 0)).
  assert (Hk : 8 * kz - 8 < p <= 8 * kz) by (subst kz; destruct (0 <? p mod 8) eqn:E; lia).
  set (k := Z.to_nat kz). assert (Hkz : Z.of_nat k = kz) by lia.
  assert (Hkl : (k <= length ip)%nat) by lia.
  rewrite cidr_mask_ok by auto.
  destruct (range_loop_spec ip p O Hp) as (lo & hi & E & L1 & L2 & O1 & O2 & V1 & V2).
  rewrite (prefix_bytes_range ip k _ lo hi E Hkl). cbn [gbind].
  assert (Elo : lo = ip).
  { apply bval_inj; auto. rewrite V1. rewrite !addr_val_bval in Hh. symmetry. exact Hh. }
  subst lo. eexists. split; [reflexivity|]. cbn [bs_len bs_bytes]. split; [reflexivity|].
  pose proof (tail_zero ip p k O Hp Hm ltac:(lia) Hkl) as T.
  assert (Lf : length (firstn k ip) = k) by (rewrite firstn_length; lia).
  split.
  - unfold wf_bits. cbn [bs_len bs_bytes]. rewrite Lf, Hkz. rewrite addr_val_bval.
    split; [apply bytes_ok_firstn, O|]. split; [lia|]. split; [lia|].
    rewrite <- (firstn_skipn k ip) in Hm. rewrite T, bval_app, bval_repeat0, repeat_length, Z.add_0_r in Hm.
    rewrite app_length, repeat_length, Lf in Hm. rewrite pow256 in Hm.
    set (t := 8 * Z.of_nat (length ip - k)) in *.
    replace (8 * Z.of_nat (k + (length ip - k)) - p) with ((8 * kz - p) + t) in Hm by lia.
    rewrite Z.pow_add_r in Hm by lia. rewrite Z.mul_mod_distr_r in Hm.
    + assert (0 < 2 ^ t) by (apply Z.pow_pos_nonneg; lia). nia.
    + apply Z.pow_nonzero; lia.
    + apply Z.pow_nonzero; lia.
  - rewrite copy_into_short by lia. rewrite Lf, <- T. apply firstn_skipn.
Qed.

Lemma decode_encoded_net fam ip p b :
  fam_octets fam (length ip) -> plain_addr ip -> 0 <= p <= addr_bits ip ->
  addr_val ip = first_addr (addr_bits ip) p (addr_val ip) ->
  ipnet_to_bits (mkNet ip (cidr_mask p (addr_bits ip))) = Ret b ->
  decode_ip fam b = Some (mkNet ip (cidr_mask p (addr_bits ip))).
Proof.
  intros Hf P Hp Hh E. destruct (ipnet_to_bits_spec ip p P Hp Hh) as (b' & E' & L & W & C).
  rewrite E in E'. injection E' as <-. unfold decode_ip. rewrite (fam_octets_size _ _ Hf).
  rewrite C, L. reflexivity.
Qed.

(** * One element *)
Lemma canonical_encode i n : canonical i n -> is_null i = false ->
  exists o, ip_asn1 i = Ret (Some o) /\
    forall fam r, fam_octets fam n -> decode_ranges fam (o :: r) =
       (let (x, ok) := decode_ranges fam r in (i :: x, ok)).
Proof.
  intros Hc Hn. destruct Hc as [ip p P Hp Hh|mn mx P1 P2 L1 L2|f i Hi].
  - destruct (ipnet_to_bits_spec ip p P Hp Hh) as (b & E & _ & _ & _).
    exists (OBits b). cbn [ip_asn1]. rewrite E. cbn [gbind]. split; [reflexivity|].
    intros fam r Hf. cbn [decode_ranges]. rewrite (decode_encoded_net fam ip p b Hf P Hp Hh E). reflexivity.
  - exists (ORange (mkBits mn 128) (mkBits mx 128)). cbn [ip_asn1].
    unfold ip_to_bits. destruct P1 as (O1 & _ & N1). destruct P2 as (O2 & _ & N2).
    rewrite !to4_not_mapped by assumption. cbn [gbind]. split; [reflexivity|].
    intros fam r Hf. cbn [decode_ranges].
    assert (E1 : decode_ip_minmax fam (mkBits mn 128) false = Some mn).
    { unfold decode_ip_minmax. rewrite (fam_octets_size _ _ Hf). cbn [bs_bytes].
      rewrite copy_into_short by lia. rewrite L1. cbn [Nat.sub repeat]. rewrite app_nil_r. reflexivity. }
    assert (E2 : decode_ip_minmax fam (mkBits mx 128) true = Some mx).
    { unfold decode_ip_minmax. rewrite (fam_octets_size _ _ Hf). cbn [bs_bytes bs_len].
      rewrite copy_into_short by lia. rewrite L2. cbn [Nat.sub repeat]. rewrite app_nil_r.
      destruct (Z.of_nat 16 <? 128 / 8) eqn:E; [discriminate E|]. f_equal.
      apply bval_inj; [apply fill_ones_length|apply fill_ones_ok; [assumption|lia]|assumption|].
      rewrite fill_ones_bval by (try assumption; lia). cbv zeta. rewrite L2.
      change (2 ^ (8 * 0 + 8 * Z.of_nat 16 - 128)) with 1. rewrite Z.mod_1_r. lia. }
    rewrite E1, E2. reflexivity.
  - destruct Hi; discriminate Hn.
Qed.

Lemma null_encode i n : canonical i n -> is_null i = true ->
  ip_asn1 i = Ret None /\ i = INull (if Nat.eqb n 4 then 1 else 2).
Proof.
  intros Hc Hn. destruct Hc as [ip p P Hp Hh|mn mx P1 P2 L1 L2|f i Hi]; try discriminate Hn.
  destruct Hi; split; reflexivity.
Qed.

Lemma canonical_len i n : canonical i n -> (n = 4 \/ n = 16)%nat.
Proof.
  intros Hc. destruct Hc as [ip p (_ & F & _) Hp Hh|mn mx P1 P2 L1 L2|f i Hi]; auto. destruct Hi; auto.
Qed.

Definition afi_of (n : nat) : Z := if Nat.eqb n 4 then 1 else 2.

Lemma canonical_afi i n : canonical i n -> ip_get_afi i = Ret (afi_of n).
Proof.
  intros Hc. destruct Hc as [ip p (O & F & N) Hp Hh|mn mx (O & _ & N) P2 L1 L2|f i Hi].
  - cbn [ip_get_afi nip]. destruct F as [F|F].
    + rewrite to4_len4 by assumption. rewrite F. reflexivity.
    + rewrite to4_not_mapped by assumption. unfold to16. rewrite F. reflexivity.
  - cbn [ip_get_afi]. rewrite to4_not_mapped by assumption. unfold to16. rewrite L1. reflexivity.
  - destruct Hi; reflexivity.
Qed.

(** Selecting a family is determined by the canonical family. *)
Definition of_family (n : nat) (i : ipinfo) : bool :=
  match ip_get_afi i with Ret a => a =? afi_of n | Panic => false end.

Lemma group_family_spec l f : all_canonical l ->
  group_family f l = Ret (filter (fun i => match ip_get_afi i with Ret a => a =? f | Panic => false end) l).
Proof.
  intros H. induction H as [|i l (n & Hi) Hl IH]; [reflexivity|].
  cbn [group_family filter]. rewrite (canonical_afi i n Hi). cbn [gbind]. rewrite IH. cbn [gbind].
  destruct (afi_of n =? f); reflexivity.
Qed.

Lemma of_family_in l n : all_canonical l -> (n = 4 \/ n = 16)%nat -> filter (in_family n) l = filter (of_family n) l.
Proof.
  intros H Hn. induction H as [|i l (m & Hi) Hl IH]; [reflexivity|].
  assert (E : in_family n i = of_family n i).
  { unfold of_family. rewrite (canonical_afi i m Hi).
    pose proof (canonical_len i m Hi) as Hm. unfold afi_of.
    assert (EI : in_family n i = Nat.eqb m n).
    { destruct Hi as [ip p P Hp Hh|mn mx P1 P2 L1 L2|f j Hj]; cbn [in_family nip]; [reflexivity|rewrite L1; reflexivity|].
      destruct Hj; destruct Hn as [-> | ->]; reflexivity. }
    rewrite EI. destruct Hm as [-> | ->]; destruct Hn as [-> | ->]; reflexivity. }
  cbn [filter]. rewrite E, IH. reflexivity.
Qed.

Lemma encode_loop_decode fam n l : fam_octets fam n -> Forall (fun i => canonical i n) l ->
  exists c, (forall acc, encode_version_loop l acc =
     Ret (if existsb is_null l then ChInherit else ChSeq (acc ++ c))) /\
    (existsb is_null l = false -> decode_ranges fam c = (l, true)).
Proof.
  intros Hf Hl. induction Hl as [|i l Hi Hl IH].
  - exists []. split; [intros acc; cbn; rewrite app_nil_r; reflexivity|reflexivity].
  - destruct IH as (c & E & D). destruct (is_null i) eqn:Ni.
    + destruct (null_encode i n Hi Ni) as [E0 _]. exists []. split.
      * intros acc. cbn [encode_version_loop existsb]. rewrite E0, Ni. reflexivity.
      * cbn [existsb]. rewrite Ni. discriminate.
    + destruct (canonical_encode i n Hi Ni) as (o & E0 & D0). exists (o :: c). split.
      * intros acc. cbn [encode_version_loop existsb]. rewrite E0, Ni. cbn [gbind orb]. rewrite E.
        rewrite <- app_assoc. reflexivity.
      * cbn [existsb]. rewrite Ni. cbn [orb]. intros Hx. rewrite (D0 fam c Hf), (D Hx). reflexivity.
Qed.

Lemma filter_family l n : all_canonical l -> (n = 4 \/ n = 16)%nat -> Forall (fun i => canonical i n) (filter (of_family n) l).
Proof.
  intros H Hn. apply Forall_forall. intros i Hi. apply filter_In in Hi as [Hi Hs].
  unfold all_canonical in H. rewrite Forall_forall in H. destruct (H i Hi) as (m & Hm).
  unfold of_family in Hs. rewrite (canonical_afi i m Hm) in Hs.
  pose proof (canonical_len i m Hm). unfold afi_of in Hs.
  assert (m = n) by (destruct (Nat.eqb_spec m 4), (Nat.eqb_spec n 4); lia). subst m. exact Hm.
Qed.

(** Encoding of one family followed by decoding. *)
Lemma encode_family_decode l n rest : all_canonical l -> (n = 4 \/ n = 16)%nat ->
  exists blk, (forall r, encode_families rest l = Ret r ->
     encode_families (afi_of n :: rest) l = Ret (blk ++ r)) /\
   forall r x ok, decode_ip_block r = (x, ok) ->
      decode_ip_block (blk ++ r) = (family_part n l ++ x, ok).
Proof.
  intros Hl Hn. set (g := filter (of_family n) l).
  pose proof (filter_family l n Hl Hn) as Hg. fold g in Hg.
  assert (Hf : fam_octets [0; afi_of n] n).
  { destruct Hn as [-> | ->]; [left|right]; (split; [reflexivity|]); exists 0, []; reflexivity. }
  destruct (encode_loop_decode _ n g Hf Hg) as (c & E & D).
  assert (EG : group_family (afi_of n) l = Ret g) by (rewrite group_family_spec by assumption; reflexivity).
  destruct g as [|g0 g'] eqn:G.
  - exists []. split.
    + intros r Hr. cbn [encode_families]. rewrite EG. cbn [gbind]. exact Hr.
    + intros r x ok Hr. unfold family_part. rewrite of_family_in by assumption. fold g. rewrite G. cbn. exact Hr.
  - exists [([0; afi_of n], if existsb is_null (g0 :: g') then ChInherit else ChSeq c)]. split.
    + intros r Hr. cbn [encode_families]. rewrite EG. cbn [gbind]. rewrite (E []). cbn [gbind].
      rewrite Hr. cbn [gbind app]. reflexivity.
    + intros r x ok Hr. unfold family_part. rewrite of_family_in by assumption. fold g. rewrite G. cbn [app decode_ip_block].
      destruct (existsb is_null (g0 :: g')) eqn:Ex.
      * rewrite Hr. destruct Hn as [-> | ->]; reflexivity.
      * rewrite (D eq_refl), Hr. reflexivity.
Qed.

Lemma encode_other_families l fams : all_canonical l -> Forall (fun f => f <> 1 /\ f <> 2) fams ->
  encode_families fams l = Ret [].
Proof.
  intros Hl Hf. induction Hf as [|f fams [H1 H2] Hf IH]; [reflexivity|].
  cbn [encode_families]. rewrite group_family_spec by assumption. cbn [gbind].
  replace (filter _ l) with (@nil ipinfo); [exact IH|].
  clear IH. induction Hl as [|i l (n & Hi) Hl IHl]; [reflexivity|].
  cbn [filter]. rewrite (canonical_afi i n Hi). pose proof (canonical_len i n Hi). unfold afi_of.
  destruct (Nat.eqb_spec n 4); [destruct (1 =? f) eqn:E; [lia|exact IHl]|].
  destruct (2 =? f) eqn:E; [lia|exact IHl].
Qed.

Lemma encode_decode_families l tl : all_canonical l -> Forall (fun f => f <> 1 /\ f <> 2) tl ->
  exists blk, encode_families (0 :: 1 :: 2 :: tl) l = Ret blk /\
    decode_ip_block blk = (family_part 4 l ++ family_part 16 l, true).
Proof.
  intros Hl HO.
  destruct (encode_family_decode l 16 tl Hl ltac:(auto)) as (b6 & E6 & D6).
  destruct (encode_family_decode l 4 (afi_of 16 :: tl) Hl ltac:(auto)) as (b4 & E4 & D4).
  specialize (E6 [] (encode_other_families l tl Hl HO)). specialize (E4 _ E6).
  assert (Hz : group_family 0 l = Ret []).
  { rewrite group_family_spec by assumption. f_equal. clear - Hl.
    induction Hl as [|i l (n & Hi) Hl IH]; [reflexivity|]. cbn [filter].
    rewrite (canonical_afi i n Hi). unfold afi_of. destruct (Nat.eqb n 4); exact IH. }
  exists (b4 ++ b6 ++ []). split.
  - transitivity (encode_families (afi_of 4 :: afi_of 16 :: tl) l); [|exact E4].
    change (afi_of 4) with 1. change (afi_of 16) with 2.
    generalize (1 :: 2 :: tl). intros q. cbn [encode_families]. rewrite Hz. reflexivity.
  - erewrite D4; [|erewrite D6; [reflexivity|reflexivity]]. rewrite app_nil_r. reflexivity.
Qed.

Lemma all_families_split : exists tl, all_families = 0 :: 1 :: 2 :: tl /\ Forall (fun f => f <> 1 /\ f <> 2) tl.
Proof.
  exists (skipn 3 all_families). split; [vm_compute; reflexivity|].
  apply Forall_forall. intros f Hf.
  assert (B : forallb (fun f => negb (f =? 1) && negb (f =? 2)) (skipn 3 all_families) = true) by (vm_compute; reflexivity).
  rewrite forallb_forall in B. specialize (B f Hf). lia.
Qed.

Lemma encode_decode_ip_block l : all_canonical l ->
  exists blk, encode_ip_block l = Ret blk /\
    decode_ip_block blk = (family_part 4 l ++ family_part 16 l, true).
Proof.
  intros Hl. unfold encode_ip_block. destruct all_families_split as (tl & -> & HO).
  apply encode_decode_families; assumption.
Qed.

(** * AS identifiers *)
Lemma encode_as_loop_spec l : ~ In ASNull l -> exists c,
  (forall acc, encode_as_loop l acc = inl (ASeq (acc ++ c))) /\ decode_as_list c = (l, true).
Proof.
  induction l as [|i l IH]; intros Hn.
  - exists []. split; [intros acc; cbn; rewrite app_nil_r; reflexivity|reflexivity].
  - destruct IH as (c & E & D); [intros H; apply Hn; right; exact H|].
    destruct i as [a b|a|].
    + exists (RSeq a b :: c). split; [|cbn; rewrite D; reflexivity].
      intros acc. cbn [encode_as_loop]. rewrite E, <- app_assoc. reflexivity.
    + exists (RInt a :: c). split; [|cbn; rewrite D; reflexivity].
      intros acc. cbn [encode_as_loop]. rewrite E, <- app_assoc. reflexivity.
    + exfalso. apply Hn. left. reflexivity.
Qed.

Lemma encode_decode_as l : l <> [] -> ~ In ASNull l \/ l = [ASNull] ->
  exists c, encode_as l = Some c /\ decode_as c = (l, true).
Proof.
  intros Hne [Hn| ->]; [|exists AInherit; split; reflexivity].
  destruct (encode_as_loop_spec l Hn) as (c & E & D). exists (ASeq c).
  unfold encode_as. rewrite (E []). cbn [app]. split; [|exact D].
  destruct l; [contradiction|reflexivity].
Qed.
