From Coq Require Import Lia ZifyBool ZifyNat.
From Verif.Model Require Import Base NetIP CertRes.
From Verif.Spec Require Import Addr.
Ltac Zify.zify_post_hook ::= Z.div_mod_to_equations.

(** * Numeric value of byte lists *)
Fixpoint bval (l : bytes) : Z :=
  match l with [] => 0 | b :: l' => b * 256 ^ Z.of_nat (length l') + bval l' end.

Lemma fold_val l : forall acc,
  fold_left (fun acc b => acc * 256 + b) l acc = acc * 256 ^ Z.of_nat (length l) + bval l.
Proof.
  induction l as [|b l IH]; intros acc; cbn [fold_left bval length].
  - cbn. lia.
  - rewrite IH. rewrite Nat2Z.inj_succ, Z.pow_succ_r by lia. nia.
Qed.

Lemma addr_val_bval l : addr_val l = bval l.
Proof. unfold addr_val. rewrite fold_val. lia. Qed.

Lemma bytes_ok_cons b l : bytes_ok (b :: l) = true <-> 0 <= b < 256 /\ bytes_ok l = true.
Proof. unfold bytes_ok; cbn [forallb]. unfold byte_ok. rewrite !andb_true_iff, Z.leb_le, Z.ltb_lt. tauto. Qed.

Lemma bytes_ok_app a b : bytes_ok (a ++ b) = true <-> bytes_ok a = true /\ bytes_ok b = true.
Proof. unfold bytes_ok. rewrite forallb_app, andb_true_iff. tauto. Qed.

Lemma pow256 n : 256 ^ Z.of_nat n = 2 ^ (8 * Z.of_nat n).
Proof. rewrite (Z.pow_mul_r 2 8) by lia. reflexivity. Qed.

Lemma pow256_pos n : 0 < 256 ^ Z.of_nat n.
Proof. apply Z.pow_pos_nonneg; lia. Qed.

Lemma bval_bound l : bytes_ok l = true -> 0 <= bval l < 256 ^ Z.of_nat (length l).
Proof.
  induction l as [|b l IH]; intros H; cbn [bval length].
  - cbn. lia.
  - apply bytes_ok_cons in H as [Hb Hl]. specialize (IH Hl).
    rewrite Nat2Z.inj_succ, Z.pow_succ_r by lia. nia.
Qed.

Lemma bval_inj a : forall b, length a = length b ->
  bytes_ok a = true -> bytes_ok b = true -> bval a = bval b -> a = b.
Proof.
  induction a as [|x a IH]; intros [|y b] Hl Ha Hb Hv; cbn in Hl; try discriminate; [reflexivity|].
  apply bytes_ok_cons in Ha as [Hx Ha]. apply bytes_ok_cons in Hb as [Hy Hb].
  injection Hl as Hl. cbn [bval] in Hv. rewrite Hl in Hv.
  pose proof (bval_bound a Ha) as B1. pose proof (bval_bound b Hb) as B2. rewrite Hl in B1.
  assert (x = y) by nia. subst y. f_equal. apply IH; auto. nia.
Qed.

Lemma bval_app a b : bval (a ++ b) = bval a * 256 ^ Z.of_nat (length b) + bval b.
Proof.
  induction a as [|x a IH]; cbn [app bval]; [lia|].
  rewrite IH, app_length, Nat2Z.inj_add, Z.pow_add_r by lia. nia.
Qed.

Lemma bval_repeat0 n : bval (repeat 0 n) = 0.
Proof. induction n as [|n IH]; cbn [repeat bval]; [reflexivity|]. rewrite IH. lia. Qed.

Lemma bytes_ok_repeat0 n : bytes_ok (repeat 0 n) = true.
Proof. induction n as [|n IH]; [reflexivity|]. cbn. exact IH. Qed.

Lemma bytes_ok_firstn n l : bytes_ok l = true -> bytes_ok (firstn n l) = true.
Proof.
  intros H. rewrite <- (firstn_skipn n l) in H. apply bytes_ok_app in H. tauto.
Qed.
Lemma bytes_ok_skipn n l : bytes_ok l = true -> bytes_ok (skipn n l) = true.
Proof.
  intros H. rewrite <- (firstn_skipn n l) in H. apply bytes_ok_app in H. tauto.
Qed.

(** * Single bytes: finite sweeps *)
Definition all_bytes : list Z := map Z.of_nat (seq 0 256).
Definition all_ns : list Z := [0;1;2;3;4;5;6;7;8].

Lemma in_all_bytes b : 0 <= b < 256 -> In b all_bytes.
Proof.
  intros H. unfold all_bytes. apply in_map_iff. exists (Z.to_nat b).
  split; [lia|]. apply in_seq. lia.
Qed.
Lemma in_all_ns n : 0 <= n <= 8 -> In n all_ns.
Proof. intros H. unfold all_ns. cbn. lia. Qed.

Definition mask_byte (n : Z) : Z := bnot8 (Z.shiftr 255 n).

Lemma mask_byte_sweep :
  forallb (fun b => forallb (fun n =>
    (Z.land b (mask_byte n) =? b - b mod 2 ^ (8 - n)) &&
    (Z.lor b (bnot8 (mask_byte n)) =? b - b mod 2 ^ (8 - n) + 2 ^ (8 - n) - 1) &&
    (Z.lor b (Z.shiftr 255 n) =? b - b mod 2 ^ (8 - n) + 2 ^ (8 - n) - 1)) all_ns) all_bytes = true.
Proof. vm_compute. reflexivity. Qed.

Lemma mask_byte_facts b n : 0 <= b < 256 -> 0 <= n <= 8 ->
  Z.land b (mask_byte n) = b - b mod 2 ^ (8 - n) /\
  Z.lor b (bnot8 (mask_byte n)) = b - b mod 2 ^ (8 - n) + 2 ^ (8 - n) - 1 /\
  Z.lor b (Z.shiftr 255 n) = b - b mod 2 ^ (8 - n) + 2 ^ (8 - n) - 1.
Proof.
  intros Hb Hn. pose proof mask_byte_sweep as S.
  rewrite forallb_forall in S. specialize (S b (in_all_bytes b Hb)). cbv beta in S.
  rewrite forallb_forall in S. specialize (S n (in_all_ns n Hn)). cbv beta in S.
  lia.
Qed.

Lemma land_255 b : 0 <= b < 256 -> Z.land b 255 = b.
Proof. intros H. change 255 with (Z.ones 8). rewrite Z.land_ones by lia. apply Z.mod_small. lia. Qed.

(** * Prefix masks over byte lists *)
Lemma cidr_fill_length l : forall n, length (cidr_fill l n) = l.
Proof. induction l as [|l IH]; intros n; cbn [cidr_fill]; [reflexivity|]. destruct (8 <=? n); cbn; rewrite IH; reflexivity. Qed.

Lemma cidr_fill_small l n : n < 8 -> cidr_fill (S l) n = mask_byte n :: cidr_fill l 0.
Proof. intros H. cbn [cidr_fill]. destruct (8 <=? n) eqn:E; [lia|reflexivity]. Qed.

Lemma cidr_fill_big l n : 8 <= n -> cidr_fill (S l) n = 255 :: cidr_fill l (n - 8).
Proof. intros H. cbn [cidr_fill]. destruct (8 <=? n) eqn:E; [reflexivity|lia]. Qed.

Lemma mod_split (b v k q : Z) : 0 < k -> 0 < q -> 0 <= v < k ->
  (b * k + v) mod (q * k) = (b mod q) * k + v.
Proof.
  intros Hk Hq Hv. symmetry. apply Z.mod_unique with (q := b / q).
  - left. pose proof (Z.mod_pos_bound b q Hq). nia.
  - pose proof (Z.div_mod b q). nia.
Qed.

Lemma mod_high (b v k q : Z) : 0 < q -> 0 < k -> k mod q = 0 -> (b * k + v) mod q = v mod q.
Proof.
  intros Hq Hk H. apply Z.mod_divide in H; [|lia]. destruct H as [c ->].
  replace (b * (c * q) + v) with (v + (b * c) * q) by lia. apply Z.mod_add. lia.
Qed.

Lemma pow2_mod a b : 0 <= b <= a -> 2 ^ a mod 2 ^ b = 0.
Proof.
  intros H. replace a with ((a - b) + b) by lia. rewrite Z.pow_add_r by lia.
  apply Z.mod_mul. apply Z.pow_nonzero; lia.
Qed.

(** The central lemma: masking and filling by a prefix mask. *)
Lemma range_loop_spec ip : forall p,
  bytes_ok ip = true -> 0 <= p <= 8 * Z.of_nat (length ip) ->
  exists lo hi,
    range_loop ip (cidr_fill (length ip) p) = Some (lo, hi) /\
    length lo = length ip /\ length hi = length ip /\
    bytes_ok lo = true /\ bytes_ok hi = true /\
    bval lo = first_addr (8 * Z.of_nat (length ip)) p (bval ip) /\
    bval hi = last_addr (8 * Z.of_nat (length ip)) p (bval ip).
Proof.
  unfold last_addr, first_addr.
  induction ip as [|b ip IH]; intros p Hok Hp.
  - exists [], []. cbn in *. replace p with 0 by lia. cbn. repeat split; reflexivity.
  - apply bytes_ok_cons in Hok as [Hb Hok]. cbn [length] in *.
    set (k := Z.of_nat (length ip)) in *.
    assert (Hw : 8 * Z.of_nat (S (length ip)) = 8 + 8 * k) by (subst k; lia).
    rewrite Hw in *.
    assert (Hpk : 256 ^ k = 2 ^ (8 * k)) by (subst k; apply pow256).
    assert (Hk0 : 0 <= k) by (subst k; lia).
    pose proof (bval_bound ip Hok) as Hv. fold k in Hv.
    assert (Hkpos : 0 < 256 ^ k) by (subst k; apply pow256_pos).
    destruct (Z_lt_le_dec p 8) as [Hlt|Hge].
    + rewrite cidr_fill_small by lia. cbn [range_loop].
      destruct (IH 0 Hok ltac:(lia)) as (lo & hi & E & L1 & L2 & O1 & O2 & V1 & V2).
      rewrite E. eexists _, _. split; [reflexivity|].
      destruct (mask_byte_facts b p Hb ltac:(lia)) as (M1 & M2 & _).
      assert (Hq : 0 < 2 ^ (8 - p)) by (apply Z.pow_pos_nonneg; lia).
      assert (Hq2 : 2 ^ 8 = 2 ^ (8 - p) * 2 ^ p) by (rewrite <- Z.pow_add_r by lia; f_equal; lia).
      change (2 ^ 8) with 256 in Hq2.
      assert (Hp2 : 0 < 2 ^ p) by (apply Z.pow_pos_nonneg; lia).
      pose proof (Z.mod_pos_bound b (2 ^ (8 - p)) Hq) as Hm.
      pose proof (Z.div_mod b (2 ^ (8 - p)) ltac:(lia)) as Hdm.
      assert (Hbq : b / 2 ^ (8 - p) < 2 ^ p) by (apply Z.div_lt_upper_bound; lia).
      assert (Hbq0 : 0 <= b / 2 ^ (8 - p)) by (apply Z.div_pos; lia).
      rewrite Z.sub_0_r in V1, V2. rewrite <- Hpk in V1, V2.
      rewrite (Z.mod_small (bval ip)) in V1, V2 by lia.
      cbn [length bval]. rewrite L1, L2.
      rewrite !bytes_ok_cons. rewrite M1, M2. fold k.
      replace (8 + 8 * k - p) with ((8 - p) + 8 * k) by lia.
      rewrite Z.pow_add_r by lia. rewrite <- Hpk.
      rewrite mod_split by lia.
      repeat split; try assumption; try lia; nia.
    + rewrite cidr_fill_big by lia. cbn [range_loop].
      destruct (IH (p - 8) Hok ltac:(lia)) as (lo & hi & E & L1 & L2 & O1 & O2 & V1 & V2).
      rewrite E. eexists _, _. split; [reflexivity|].
      cbn [length bval]. rewrite L1, L2. rewrite !bytes_ok_cons.
      rewrite land_255 by lia. change (bnot8 255) with 0. rewrite Z.lor_0_r. fold k.
      replace (8 + 8 * k - p) with (8 * k - (p - 8)) by lia.
      rewrite mod_high; [repeat split; try assumption; lia| | lia |].
      * apply Z.pow_pos_nonneg; lia.
      * rewrite Hpk. apply pow2_mod. lia.
Qed.

(** masked equality is equality of the masked lower bounds *)
Lemma masked_eq_lo nn : forall ip m lo1 hi1 lo2 hi2,
  length nn = length ip ->
  range_loop nn m = Some (lo1, hi1) -> range_loop ip m = Some (lo2, hi2) ->
  (masked_eq nn ip m = true <-> lo1 = lo2).
Proof.
  induction nn as [|a nn IH]; intros [|b ip] m lo1 hi1 lo2 hi2 Hl H1 H2; cbn in Hl; try discriminate.
  - cbn in H1, H2. injection H1 as <- <-. injection H2 as <- <-. cbn. tauto.
  - destruct m as [|k m]; [discriminate|]. cbn [range_loop] in H1, H2.
    destruct (range_loop nn m) as [[l1 h1]|] eqn:E1; [|discriminate].
    destruct (range_loop ip m) as [[l2 h2]|] eqn:E2; [|discriminate].
    injection H1 as <- <-. injection H2 as <- <-. cbn [masked_eq].
    rewrite andb_true_iff, Z.eqb_eq.
    rewrite (IH ip m l1 h1 l2 h2) by (auto; lia).
    split; [intros [-> ->]; reflexivity | intros E; injection E; auto].
Qed.

Lemma first_addr_eq_iff w p a v : 0 <= p <= w ->
  first_addr w p a = first_addr w p v <-> first_addr w p a <= v <= last_addr w p a.
Proof.
  intros Hp. unfold last_addr, first_addr.
  assert (Hq : 0 < 2 ^ (w - p)) by (apply Z.pow_pos_nonneg; lia).
  set (q := 2 ^ (w - p)) in *.
  pose proof (Z.mod_pos_bound v q Hq). pose proof (Z.mod_pos_bound a q Hq).
  split; intros H1; [lia|].
  pose proof (Z.div_mod v q ltac:(lia)). pose proof (Z.div_mod a q ltac:(lia)).
  assert (v / q = a / q) by nia. nia.
Qed.

(** * to4 *)
Lemma to4_len4 ip : length ip = 4%nat -> to4 ip = Some ip.
Proof. intros H. unfold to4. rewrite H. reflexivity. Qed.

Lemma zeros_bval l : bytes_ok l = true -> (forallb (Z.eqb 0) l = true <-> bval l = 0).
Proof.
  induction l as [|x l IH]; intros H; cbn [forallb bval]; [tauto|].
  apply bytes_ok_cons in H as [Hx Hl]. specialize (IH Hl).
  pose proof (bval_bound l Hl). pose proof (pow256_pos (length l)) as Hp.
  set (k := 256 ^ Z.of_nat (length l)) in *.
  rewrite andb_true_iff, Z.eqb_eq, IH. split; [intros [<- ->]; lia|]. intros E.
  assert (x = 0) by nia. subst x. lia.
Qed.

Lemma to4_len16 ip : length ip = 16%nat -> bytes_ok ip = true ->
  match to4 ip with
  | Some x => length x = 4%nat /\ bytes_ok x = true /\ bval ip = 65535 * 2 ^ 32 + bval x
  | None => ~ v4mapped (bval ip)
  end.
Proof.
  intros H Hok.
  assert (E : exists h a b x, ip = h ++ a :: b :: x /\ length h = 10%nat /\ length x = 4%nat).
  { do 16 (destruct ip as [|? ip]; [discriminate H|]). destruct ip; [|discriminate H].
    match goal with |- exists _ _ _ _, ?a :: ?b :: ?c :: ?d :: ?e :: ?f :: ?g :: ?i :: ?j :: ?k :: ?l :: ?m :: ?t = _ /\ _ =>
      exists [a;b;c;d;e;f;g;i;j;k], l, m, t end. repeat split. }
  destruct E as (h & a & b & x & -> & Hh & Hx). clear H.
  apply bytes_ok_app in Hok as [Oh O]. apply bytes_ok_cons in O as [Oa O]. apply bytes_ok_cons in O as [Ob Ox].
  assert (V : bval (h ++ a :: b :: x) = bval h * 2 ^ 48 + a * 2 ^ 40 + b * 2 ^ 32 + bval x).
  { rewrite bval_app. cbn [bval length]. rewrite Hx. change (256 ^ Z.of_nat 6) with (2 ^ 48).
    change (256 ^ Z.of_nat 5) with (2 ^ 40). change (256 ^ Z.of_nat 4) with (2 ^ 32). lia. }
  pose proof (bval_bound x Ox) as Bx. rewrite Hx in Bx. change (256 ^ Z.of_nat 4) with (2 ^ 32) in Bx.
  pose proof (bval_bound h Oh) as Bh.
  rewrite V. clear V.
  unfold to4. rewrite app_length. cbn [length]. rewrite Hh, Hx. cbn [Nat.add Nat.eqb andb].
  rewrite firstn_app, Hh. rewrite firstn_all2 by lia. cbn [Nat.sub firstn]. rewrite app_nil_r.
  rewrite !app_nth2 by lia. rewrite Hh. cbn [Nat.sub nth].
  rewrite skipn_app, Hh. rewrite (skipn_all2 h) by lia. cbn [Nat.sub skipn app].
  pose proof (zeros_bval h Oh) as Hz.
  destruct (forallb (Z.eqb 0) h) eqn:E; cbn [andb].
  - assert (Hz0 : bval h = 0) by tauto. rewrite Hz0.
    destruct (a =? 255) eqn:Ea; cbn [andb]; [destruct (b =? 255) eqn:Eb|].
    + split; [assumption|]. split; [assumption|]. lia.
    + unfold v4mapped. lia.
    + unfold v4mapped. lia.
  - assert (bval h <> 0) by (intros E0; apply Hz in E0; discriminate).
    unfold v4mapped. lia.
Qed.

Lemma to4_other ip : length ip <> 4%nat -> length ip <> 16%nat -> to4 ip = None.
Proof. intros H1 H2. unfold to4. destruct (Nat.eqb_spec (length ip) 4); [lia|]. destruct (Nat.eqb_spec (length ip) 16); [lia|reflexivity]. Qed.

(** cidr_mask on proper arguments *)
Lemma cidr_mask_ok p n : (n = 4 \/ n = 16)%nat -> 0 <= p <= 8 * Z.of_nat n ->
  cidr_mask p (8 * Z.of_nat n) = cidr_fill n p.
Proof.
  intros Hn Hp. unfold cidr_mask.
  assert (E : Z.to_nat (8 * Z.of_nat n / 8) = n) by lia. rewrite E.
  destruct Hn as [-> | ->]; cbn [Z.of_nat Pos.of_succ_nat Pos.succ Z.mul Pos.mul Pos.add] in *;
  match goal with |- context [if negb ?c then _ else _] => change c with true end; cbn [negb];
  match goal with |- (if ?c then _ else _) = _ => destruct c eqn:E2; [lia|reflexivity] end.
Qed.

Lemma cidr_mask_len p n : (n = 4 \/ n = 16)%nat -> 0 <= p <= 8 * Z.of_nat n ->
  length (cidr_mask p (8 * Z.of_nat n)) = n.
Proof. intros. rewrite cidr_mask_ok by assumption. apply cidr_fill_length. Qed.

Definition is_family_len (l : bytes) : Prop := (length l = 4 \/ length l = 16)%nat.
Definition not_mapped (l : bytes) : Prop := length l = 16%nat -> ~ v4mapped (addr_val l).

Lemma to4_not_mapped ip : bytes_ok ip = true -> length ip = 16%nat -> not_mapped ip -> to4 ip = None.
Proof.
  intros Hok Hl Hm. pose proof (to4_len16 ip Hl Hok) as H. destruct (to4 ip) as [x|]; [|reflexivity].
  exfalso. apply (Hm Hl). destruct H as (H1 & H2 & H3). rewrite addr_val_bval. unfold v4mapped.
  pose proof (bval_bound x H2) as B. rewrite H1 in B. cbn in B. lia.
Qed.

Lemma masked_contains a v p : length a = length v -> bytes_ok a = true -> bytes_ok v = true ->
  0 <= p <= addr_bits a ->
  (masked_eq a v (cidr_fill (length a) p) = true <->
   first_addr (addr_bits a) p (addr_val a) <= addr_val v <= last_addr (addr_bits a) p (addr_val a)).
Proof.
  intros Hl Ha Hv Hp. unfold addr_bits in *. rewrite !addr_val_bval.
  destruct (range_loop_spec a p Ha Hp) as (lo & hi & E & L1 & L2 & O1 & O2 & V1 & V2).
  rewrite Hl in Hp. destruct (range_loop_spec v p Hv Hp) as (lo' & hi' & E' & L1' & L2' & O1' & O2' & V1' & V2').
  rewrite <- Hl in E', V1', V2'.
  rewrite (masked_eq_lo a v _ lo hi lo' hi') by assumption.
  rewrite <- first_addr_eq_iff by lia. rewrite <- V1, <- V1'.
  split; [intros ->; reflexivity|]. intros HV. apply bval_inj; auto; lia.
Qed.

(** Membership in a certificate prefix, non-mapped case. *)
Lemma net_contains_spec ip p a :
  is_family_len ip -> bytes_ok ip = true -> not_mapped ip -> 0 <= p <= addr_bits ip ->
  bytes_ok a = true -> not_mapped a ->
  (net_contains (mkNet ip (cidr_mask p (addr_bits ip))) a = true <->
   length a = length ip /\
   first_addr (addr_bits ip) p (addr_val ip) <= addr_val a <= last_addr (addr_bits ip) p (addr_val ip)).
Proof.
  intros Hf Hok Hm Hp Ha Hma. unfold addr_bits in *.
  rewrite cidr_mask_ok by (auto; exact Hf).
  unfold net_contains, network_number_and_mask. cbn [nip nmask].
  rewrite cidr_fill_length.
  assert (Ea : match to4 a with Some x => x | None => a end = a).
  { destruct (Nat.eq_dec (length a) 4) as [E4|N4]; [rewrite to4_len4 by assumption; reflexivity|].
    destruct (Nat.eq_dec (length a) 16) as [E16|N16].
    - rewrite to4_not_mapped by assumption. reflexivity.
    - rewrite to4_other by assumption. reflexivity. }
  rewrite Ea.
  destruct Hf as [H4|H16].
  - rewrite to4_len4 by assumption. rewrite H4. cbn [Nat.eqb].
    rewrite H4. cbn [negb]. destruct (Nat.eqb_spec (length a) 4) as [E|E]; cbn [negb].
    + pose proof (masked_contains ip a p ltac:(lia) Hok Ha ltac:(unfold addr_bits; lia)) as M.
      rewrite H4 in M. unfold addr_bits in M. rewrite H4 in M. rewrite M. tauto.
    + split; [discriminate|]. lia.
  - rewrite to4_not_mapped by assumption. rewrite H16.
    cbn -[masked_eq cidr_fill first_addr last_addr addr_val]. rewrite H16.
    cbn -[masked_eq cidr_fill first_addr last_addr addr_val]. rewrite H16.
    destruct (Nat.eqb_spec (length a) 16) as [E|E]; cbn [negb].
    + pose proof (masked_contains ip a p ltac:(lia) Hok Ha ltac:(unfold addr_bits; lia)) as M.
      rewrite H16 in M. unfold addr_bits in M. rewrite H16 in M. rewrite M. cbn -[first_addr last_addr addr_val]. tauto.
    + split; [discriminate|]. lia.
Qed.

(** bytes.Compare on equal lengths is numeric comparison *)
Lemma bytes_compare_num a : forall b, length a = length b -> bytes_ok a = true -> bytes_ok b = true ->
  bytes_compare a b = (if bval a <? bval b then -1 else if bval b <? bval a then 1 else 0).
Proof.
  induction a as [|x a IH]; intros [|y b] Hl Ha Hb; cbn in Hl; try discriminate; [reflexivity|].
  apply bytes_ok_cons in Ha as [Hx Ha]. apply bytes_ok_cons in Hb as [Hy Hb]. injection Hl as Hl.
  cbn [bytes_compare bval]. rewrite (IH b Hl Ha Hb). rewrite Hl.
  pose proof (bval_bound a Ha) as B1. pose proof (bval_bound b Hb) as B2. rewrite Hl in B1.
  set (k := 256 ^ Z.of_nat (length b)) in *.
  destruct (x <? y) eqn:E1.
  { assert (x * k + bval a < y * k + bval b) by nia.
    destruct (x * k + bval a <? y * k + bval b) eqn:E2; lia. }
  destruct (y <? x) eqn:E2.
  { assert (y * k + bval b < x * k + bval a) by nia.
    destruct (x * k + bval a <? y * k + bval b) eqn:E3; [lia|].
    destruct (y * k + bval b <? x * k + bval a) eqn:E4; lia. }
  assert (x = y) by lia. subst y.
  replace (x * k + bval a <? x * k + bval b) with (bval a <? bval b) by lia.
  replace (x * k + bval b <? x * k + bval a) with (bval b <? bval a) by lia.
  reflexivity.
Qed.
