From Coq Require Import Lia ZifyBool ZifyNat Permutation.
From Verif.Model Require Import Base NetIP CertRes Roa.
From Verif.Spec Require Import Addr Resources Bits Canon.
From Verif.Proofs Require Import NetIPProofs CertProofs DecodeProofs EncodeProofs.
Ltac Zify.zify_post_hook ::= Z.div_mod_to_equations.

(** * C20 *)
Lemma bits_val_bound b : wf_bits b -> 0 <= bits_val b < 2 ^ bs_len b.
Proof.
  intros (O & H0 & Hl & Hp). unfold bits_val. rewrite addr_val_bval.
  pose proof (bval_bound _ O) as B. rewrite pow256 in B.
  set (L := 8 * Z.of_nat (length (bs_bytes b))) in *.
  assert (Hq : 0 < 2 ^ (L - bs_len b)) by (apply Z.pow_pos_nonneg; lia).
  split; [apply Z.div_pos; lia|]. apply Z.div_lt_upper_bound; [lia|].
  rewrite <- Z.pow_add_r by lia. replace (L - bs_len b + bs_len b) with L by lia. lia.
Qed.

Lemma mapped_long b : wf_bits b -> bs_len b <= 128 ->
  v4mapped (bits_val b * 2 ^ (128 - bs_len b)) -> 96 <= bs_len b.
Proof.
  intros W Hl M. assert (H0 : 0 <= bs_len b) by apply W.
  pose proof (bits_val_bound b W) as B.
  destruct (Z_lt_le_dec (bs_len b) 96) as [Hlt|]; [|lia]. exfalso.
  unfold v4mapped in M.
  set (e := 128 - bs_len b) in *. replace e with ((e - 33) + 33) in M by lia.
  rewrite Z.pow_add_r in M by lia. rewrite Z.mul_assoc in M.
  set (X := bits_val b * 2 ^ (e - 33)) in *.
  change (2 ^ 33) with 8589934592 in M. change (2 ^ 32) with 4294967296 in M. lia.
Qed.

Lemma converted_validate fam n b ml r : fam_octets fam n -> wf_bits b -> bs_len b <= 8 * Z.of_nat n ->
  convert_addrs fam [mkAddr b ml] = Some r ->
  exists e, r = [e] /\
   re_maxlen e = (if ml <? 0 then bs_len b else ml) /\
   (entry_validate e = true <->
     bs_len b <= re_maxlen e <= 8 * Z.of_nat n /\
     (n = 16%nat -> ~ v4mapped (bits_val b * 2 ^ (128 - bs_len b)))).
Proof.
  intros Hf Hb Hl H. pose proof (fam_len _ _ Hf) as Hn. assert (H0 : 0 <= bs_len b) by apply Hb.
  destruct (decode_ip_spec fam n b Hf Hb Hl) as (net & E & L & O & M & V).
  cbn [convert_addrs ra_bits ra_maxlen] in H. rewrite E in H. rewrite M in H.
  rewrite mask_size_cidr in H by auto. cbn [fst] in H. injection H as <-.
  eexists. split; [reflexivity|]. cbn [re_maxlen]. split; [reflexivity|].
  unfold entry_validate. cbn [re_net re_maxlen]. rewrite M, mask_size_cidr by auto. cbn [fst].
  set (m := if ml <? 0 then bs_len b else ml).
  destruct Hn as [-> | ->].
  - rewrite to4_len4 by assumption. cbn [isSome andb].
    destruct (m <? bs_len b) eqn:E1; [lia|]. destruct (m <? 0) eqn:E2; [lia|].
    destruct (32 <? m) eqn:E3; [lia|]. destruct (128 <? m) eqn:E4; lia.
  - pose proof (to4_len16 _ L O) as T. rewrite <- addr_val_bval, V in T.
    change (8 * Z.of_nat 16) with 128 in *.
    pose proof (mapped_long b Hb Hl) as ML.
    destruct (to4 (nip net)) as [x|]; cbn [isSome andb].
    + destruct T as (T1 & T2 & T3). pose proof (bval_bound x T2) as B. rewrite T1 in B.
      change (256 ^ Z.of_nat 4) with (2 ^ 32) in B.
      assert (MM : v4mapped (bits_val b * 2 ^ (128 - bs_len b))) by (unfold v4mapped; lia).
      specialize (ML MM).
      destruct (m <? bs_len b) eqn:E1; [lia|]. destruct (m <? 0) eqn:E2; [lia|].
      destruct (32 <? m) eqn:E3; [|lia]. split; [discriminate|]. intros [_ N]. exfalso. apply N; auto.
    + destruct (m <? bs_len b) eqn:E1; [lia|]. destruct (m <? 0) eqn:E2; [lia|].
      destruct (128 <? m) eqn:E4; [lia|]. split; [|reflexivity]. intros _. split; [lia|]. intros _. exact T.
Qed.

Lemma validate_entries_all l : validate_entries l = true <-> Forall (fun e => entry_validate e = true) l.
Proof. unfold validate_entries. rewrite forallb_forall, Forall_forall. reflexivity. Qed.

(** canonical statement on prefixes *)
Lemma entry_validate_prefix ip p ml : plain_addr ip -> 0 <= p <= addr_bits ip ->
  (entry_validate (mkEntry (mkNet ip (cidr_mask p (addr_bits ip))) ml) = true <-> p <= ml <= addr_bits ip).
Proof.
  intros (O & F & N) Hp. unfold addr_bits in *. unfold entry_validate. cbn [re_net re_maxlen nip nmask].
  rewrite mask_size_cidr by auto. cbn [fst].
  destruct F as [F|F].
  - rewrite to4_len4 by assumption. cbn [isSome andb]. rewrite F in *.
    destruct (ml <? p) eqn:E1; [lia|]. destruct (ml <? 0) eqn:E2; [lia|].
    destruct (32 <? ml) eqn:E3; [lia|]. destruct (128 <? ml) eqn:E4; lia.
  - rewrite to4_not_mapped by assumption. cbn [isSome andb]. rewrite F in *.
    destruct (ml <? p) eqn:E1; [lia|]. destruct (ml <? 0) eqn:E2; [lia|].
    destruct (128 <? ml) eqn:E4; lia.
Qed.

Lemma validate_entries_prefixes l : 
  (forall e, In e l -> exists ip p, re_net e = mkNet ip (cidr_mask p (addr_bits ip)) /\ plain_addr ip /\ 0 <= p <= addr_bits ip) ->
  (validate_entries l = true <->
   forall e ip p, In e l -> plain_addr ip -> 0 <= p <= addr_bits ip ->
     re_net e = mkNet ip (cidr_mask p (addr_bits ip)) -> p <= re_maxlen e <= addr_bits ip).
Proof.
  intros Hl. rewrite validate_entries_all, Forall_forall. split.
  - intros H e ip p He P Hp E. specialize (H e He). destruct e as [net ml]. cbn [re_net re_maxlen] in *. subst net.
    apply entry_validate_prefix in H; auto.
  - intros H e He. destruct (Hl e He) as (ip & p & E & P & Hp). specialize (H e ip p He P Hp E).
    destruct e as [net ml]. cbn [re_net re_maxlen] in *. subst net. apply entry_validate_prefix; auto.
Qed.

(** * C21 *)
Lemma entry_range e fam lo hi : entry_denotes e fam lo hi -> plain_bounds fam lo hi ->
  exists mn mx, get_range_ip (re_net e) = Some (mn, mx) /\ plain_addr mn /\ plain_addr mx /\
    length mn = fam /\ length mx = fam /\ addr_val mn = lo /\ addr_val mx = hi.
Proof.
  intros Hd Hb. destruct (denotes_range _ _ _ _ Hd Hb) as (mn & mx & E & P1 & P2 & L1 & L2 & V1 & V2).
  cbn [ip_get_range] in E. pose proof (denotes_family _ _ _ _ Hd) as Hf.
  destruct (get_range_ip (re_net e)) as [[a b]|]; injection E as <- <-.
  - exists a, b. repeat split; auto; try apply P1; try apply P2.
  - exfalso. cbn in L1. lia.
Qed.

Lemma validate_roa_list_spec l cert : wf_list cert ->
  (forall e, In e l -> exists fam lo hi, entry_denotes e fam lo hi /\ plain_bounds fam lo hi) ->
  exists v iv c, validate_roa_list l cert = Ret (v, iv, c) /\ Permutation l (v ++ iv ++ c) /\
    (forall e, In e v -> exists fam lo hi, entry_denotes e fam lo hi /\ covered cert fam lo hi) /\
    (forall e, In e c -> exists fam lo hi, entry_denotes e fam lo hi /\ inherited cert fam) /\
    (forall e, In e iv -> exists fam lo hi, entry_denotes e fam lo hi /\
        ~ covered cert fam lo hi /\ ~ inherited cert fam).
Proof.
  intros Hc. induction l as [|e l IH]; intros Hl.
  - exists [], [], []. cbn. repeat split; try contradiction. constructor.
  - destruct IH as (v & iv & c & E & Pm & Hv & Hck & Hiv); [intros x Hx; apply Hl; right; exact Hx|].
    destruct (Hl e ltac:(left; reflexivity)) as (fam & lo & hi & Hd & Hpb).
    destruct (entry_range _ _ _ _ Hd Hpb) as (mn & mx & E0 & P1 & P2 & L1 & L2 & V1 & V2).
    cbn [validate_roa_list]. rewrite E0. cbn [odefault].
    destruct (is_ip_range_in_spec cert mn mx Hc P1 P2 ltac:(lia)) as (b & ck & E1 & S1 & S2 & S3 & S4).
    rewrite E1. cbn [gbind]. rewrite E. cbn [gbind app]. rewrite L1, V1, V2 in *.
    destruct b.
    + exists (e :: v), iv, c. split; [reflexivity|]. split; [cbn; constructor; exact Pm|].
      repeat split; auto. intros x [<-|Hx]; [|auto]. exists fam, lo, hi. split; [exact Hd|].
      destruct (S1 eq_refl) as (i & lo' & hi' & He & Hde & Q1 & Q2). exists i, lo', hi'. repeat split; auto; lia.
    + destruct ck.
      * exists v, iv, (e :: c). split; [reflexivity|]. split.
        { rewrite Pm. rewrite !app_assoc. apply Permutation_middle. }
        repeat split; auto. intros x [<-|Hx]; [|auto]. exists fam, lo, hi. split; [exact Hd|]. exact (S2 eq_refl).
      * exists v, (e :: iv), c. split; [reflexivity|]. split.
        { rewrite Pm. cbn. apply Permutation_middle. }
        repeat split; auto. intros x [<-|Hx]; [|auto]. exists fam, lo, hi. split; [exact Hd|]. split.
        -- intros (i & lo' & hi' & He & Hde & Q1 & Q2). destruct (S4 eq_refl eq_refl i He) as [_ S].
           apply (S lo' hi' Hde). destruct Hpb as [Hle _]. lia.
        -- intros (i & He & Hie). destruct (S4 eq_refl eq_refl i He) as [S _]. contradiction.
Qed.

(** * C22 *)
Lemma canonical_entry_afi e n : canonical_entry e n -> entry_afi e = afi_of n.
Proof.
  intros (ip & p & E & L & (O & F & N) & Hp & Hh & Hm). unfold entry_afi. rewrite E. cbn [nip].
  destruct F as [F|F].
  - rewrite to4_len4 by assumption. rewrite <- L, F. reflexivity.
  - rewrite to4_not_mapped by assumption. rewrite <- L, F. reflexivity.
Qed.

Lemma encode_addrs_spec n l fam : Forall (fun e => canonical_entry e n) l -> fam_octets fam n ->
  exists a, encode_addrs l = Ret a /\ convert_addrs fam a = Some l.
Proof.
  intros Hl Hf. induction Hl as [|e l He Hl IH]; [exists []; split; reflexivity|].
  destruct IH as (a & E & D). destruct He as (ip & p & Ee & L & P & Hp & Hh & Hm).
  destruct (ipnet_to_bits_spec ip p P Hp Hh) as (b & E0 & _ & _ & _).
  cbn [encode_addrs]. rewrite Ee, E0. cbn [gbind]. rewrite E. cbn [gbind].
  eexists. split; [reflexivity|]. cbn [convert_addrs ra_bits ra_maxlen].
  rewrite (decode_encoded_net fam ip p b) by (try assumption; rewrite L; assumption).
  rewrite D. destruct (re_maxlen e <? 0) eqn:Em; [lia|]. destruct e as [net ml]; cbn [re_net re_maxlen] in *. subst net. reflexivity.
Qed.

Lemma encode_group_spec n l : (n = 4 \/ n = 16)%nat -> Forall (fun e => exists m, canonical_entry e m) l ->
  exists blk, encode_group (afi_of n) l = Ret blk /\
   forall r x, convert_entries r = Some x ->
     convert_entries (blk ++ r) = Some (filter (fun e => Nat.eqb (length (nip (re_net e))) n) l ++ x).
Proof.
  intros Hn Hl.
  assert (EF : filter (fun e => entry_afi e =? afi_of n) l = filter (fun e => Nat.eqb (length (nip (re_net e))) n) l /\
    Forall (fun e => canonical_entry e n) (filter (fun e => entry_afi e =? afi_of n) l)).
  { induction Hl as [|e l (m & He) Hl IH]; [split; [reflexivity|constructor]|]. destruct IH as [IH1 IH2].
    cbn [filter]. rewrite (canonical_entry_afi e m He).
    assert (Em : length (nip (re_net e)) = m) by (destruct He as (ip & p & -> & L & _); exact L).
    assert (Hm : (m = 4 \/ m = 16)%nat) by (destruct He as (ip & p & _ & L & (_ & F & _) & _); lia).
    rewrite Em. unfold afi_of in *.
    destruct (Nat.eqb_spec m n) as [->|Hne].
    - rewrite Z.eqb_refl. split; [rewrite IH1; reflexivity|constructor; assumption].
    - destruct (Nat.eqb_spec m 4), (Nat.eqb_spec n 4); try lia; cbn [Z.eqb Pos.eqb]; split; assumption. }
  destruct EF as [EF FF]. unfold encode_group. rewrite <- EF.
  assert (Hf : fam_octets [0; afi_of n] n).
  { destruct Hn as [-> | ->]; [left|right]; (split; [reflexivity|]); exists 0, []; reflexivity. }
  destruct (encode_addrs_spec n _ _ FF Hf) as (a & E & D).
  destruct (filter (fun e => entry_afi e =? afi_of n) l) as [|g0 g] eqn:G.
  - exists []. split; [reflexivity|]. intros r x Hr. exact Hr.
  - rewrite E. cbn [gbind]. eexists. split; [reflexivity|]. intros r x Hr. cbn [app convert_entries].
    rewrite D, Hr. reflexivity.
Qed.

Lemma encode_convert_entries l : Forall (fun e => exists m, canonical_entry e m) l ->
  exists blk, encode_roa_entries l = Ret blk /\
   convert_entries blk = Some (filter (fun e => Nat.eqb (length (nip (re_net e))) 4) l ++
                               filter (fun e => Nat.eqb (length (nip (re_net e))) 16) l).
Proof.
  intros Hl. destruct (encode_group_spec 4 l ltac:(auto) Hl) as (b4 & E4 & D4).
  destruct (encode_group_spec 16 l ltac:(auto) Hl) as (b6 & E6 & D6).
  unfold encode_roa_entries. change 1 with (afi_of 4). change 2 with (afi_of 16).
  rewrite E4, E6. cbn [gbind]. eexists. split; [reflexivity|].
  apply D4. specialize (D6 [] [] eq_refl). rewrite !app_nil_r in D6. exact D6.
Qed.
