From Coq Require Import Lia ZifyBool ZifyNat.
From Verif.Model Require Import Base Ber.
From Verif.Spec Require Import Addr BerSpec.
From Verif.Proofs Require Import NetIPProofs.
Ltac Zify.zify_post_hook ::= Z.div_mod_to_equations.

(** * Lengths *)
Lemma pow256_S k : 256 ^ Z.of_nat (S k) = 256 * 256 ^ Z.of_nat k.
Proof. rewrite Nat2Z.inj_succ, Z.pow_succ_r by lia. reflexivity. Qed.

Lemma length_length_bounds f : forall n, 1 <= n < 256 ^ Z.of_nat (S f) ->
  (1 <= length_length f n <= S f)%nat /\
  256 ^ Z.of_nat (length_length f n - 1) <= n < 256 ^ Z.of_nat (length_length f n).
Proof.
  induction f as [|f IH]; intros n Hn.
  - cbn in *. lia.
  - cbn [length_length]. destruct (255 <? n) eqn:E.
    + rewrite Z.shiftr_div_pow2 by lia. change (2 ^ 8) with 256.
      rewrite pow256_S in Hn. pose proof (pow256_pos (S f)) as Hp.
      destruct (IH (n / 256)) as [B1 B2].
      { split; [lia|]. apply Z.div_lt_upper_bound; lia. }
      set (k := length_length f (n / 256)) in *. split; [lia|].
      replace (S k - 1)%nat with (S (k - 1)) by lia. rewrite !pow256_S.
      split; [|lia].
      pose proof (Z.mul_div_le n 256). lia.
    + split; [lia|]. cbn. lia.
Qed.

Lemma marshal_long_bval k : forall n, 0 <= n ->
  length (marshal_long k n) = k /\ bytes_ok (marshal_long k n) = true /\
  bval (marshal_long k n) = n mod 256 ^ Z.of_nat k.
Proof.
  induction k as [|k IH]; intros n Hn.
  - cbn. rewrite Z.mod_1_r. repeat split.
  - destruct (IH n Hn) as (L & O & V). cbn [marshal_long length bval]. rewrite L, V.
    rewrite Z.shiftr_div_pow2 by lia. rewrite <- pow256.
    change 255 with (Z.ones 8). rewrite Z.land_ones by lia. change (2 ^ 8) with 256.
    pose proof (pow256_pos k) as Hp. set (q := 256 ^ Z.of_nat k) in *.
    split; [reflexivity|]. split; [apply bytes_ok_cons; split; [lia|exact O]|].
    rewrite pow256_S. fold q. rewrite (Z.mul_comm 256 q). rewrite Z.rem_mul_r by lia. lia.
Qed.

Lemma pow256_le a b : (a <= b)%nat -> 256 ^ Z.of_nat a <= 256 ^ Z.of_nat b.
Proof. intros H. apply Z.pow_le_mono_r; lia. Qed.

Lemma lor128 k : 0 <= k < 128 -> Z.lor 128 (Z.land k 255) = 128 + k.
Proof.
  intros H.
  assert (B : forallb (fun k => Z.lor 128 (Z.land k 255) =? 128 + k) (map Z.of_nat (seq 0 128)) = true) by (vm_compute; reflexivity).
  rewrite forallb_forall in B. specialize (B k).
  assert (In k (map Z.of_nat (seq 0 128))) by (apply in_map_iff; exists (Z.to_nat k); split; [lia|apply in_seq; lia]).
  specialize (B H0). lia.
Qed.

Lemma hd_bval ds : bytes_ok ds = true -> hd 0 ds <> 0 -> ds <> [] /\ 256 ^ Z.of_nat (length ds - 1) <= bval ds.
Proof.
  intros O H. destruct ds as [|b ds]; [contradiction|]. split; [discriminate|].
  apply bytes_ok_cons in O as [Hb O]. cbn [hd] in H. cbn [length bval].
  pose proof (bval_bound ds O). replace (S (length ds) - 1)%nat with (length ds) by lia.
  pose proof (pow256_pos (length ds)). nia.
Qed.

Lemma encode_length_der n : 0 <= n < 2 ^ 63 -> der_len n (encode_length n).
Proof.
  intros Hn. unfold encode_length. destruct (128 <=? n) eqn:E.
  - destruct (length_length_bounds 8 n) as [B1 B2]; [split; [lia|]; change (256 ^ Z.of_nat 9) with (2 ^ 72); lia|].
    set (k := length_length 8 n) in *. clearbody k.
    destruct (marshal_long_bval k n ltac:(lia)) as (L & O & V).
    rewrite Z.mod_small in V by lia. rewrite lor128 by lia.
    split.
    + apply len_long; auto; [lia| |rewrite addr_val_bval; exact V].
      destruct (marshal_long k n) as [|b ds] eqn:M; [cbn [length] in L; lia|]. cbn [hd].
      intros ->. apply bytes_ok_cons in O as [_ O]. cbn [bval length] in *.
      pose proof (bval_bound ds O). replace (k - 1)%nat with (length ds) in B2 by lia. lia.
    + cbn [length]. rewrite L. lia.
  - assert (El : Z.land n 255 = n) by (apply land_255; lia). rewrite El.
    split; [apply len_short; lia|]. cbn. lia.
Qed.

Lemma der_len_unique n l : n < 2 ^ 63 -> der_len n l -> l = encode_length n.
Proof.
  intros Hn [Hl Hm]. destruct Hl as [n H|k ds n Hk Hk2 O Hd V].
  - unfold encode_length. destruct (128 <=? n) eqn:E; [lia|]. rewrite land_255 by lia. reflexivity.
  - cbn [length] in Hm. assert (Hn128 : 128 <= n) by (destruct ds; cbn in *; lia).
    rewrite addr_val_bval in V.
    destruct (hd_bval ds O Hd) as [_ Hlo]. pose proof (bval_bound ds O) as Hhi.
    unfold encode_length. destruct (128 <=? n) eqn:E; [|lia].
    destruct (length_length_bounds 8 n) as [B1 B2]; [split; [lia|]; change (256 ^ Z.of_nat 9) with (2 ^ 72); lia|].
    set (m := length_length 8 n) in *. rewrite V, Hk in *.
    assert (m = k).
    { destruct (Nat.lt_trichotomy m k) as [Hlt|[Heq|Hgt]]; [|exact Heq|].
      - pose proof (pow256_le m (k - 1) ltac:(lia)). lia.
      - pose proof (pow256_le k (m - 1) ltac:(lia)). lia. }
    rewrite H in *. destruct (marshal_long_bval k n ltac:(lia)) as (L & O' & V').
    rewrite Z.mod_small in V' by lia. rewrite lor128 by lia. f_equal.
    apply bval_inj; auto; lia.
Qed.

(** * Objects and trees *)
Fixpoint of_tree (t : tree) : aobj :=
  match t with
  | Prim tag c => APrim tag c
  | Cons tag ts => AStruct tag (map of_tree ts)
  end.

Lemma encode_struct tag ts : encode_obj (AStruct tag ts) =
  tag ++ encode_length (Z.of_nat (length (flat_map encode_obj ts))) ++ flat_map encode_obj ts.
Proof. reflexivity. Qed.

Lemma tree_ind2 (P : tree -> Prop) :
  (forall tag c, P (Prim tag c)) -> (forall tag ts, Forall P ts -> P (Cons tag ts)) -> forall t, P t.
Proof.
  intros H1 H2. fix IH 1. intros [tag c|tag ts]; [apply H1|]. apply H2.
  induction ts as [|t ts IHts]; constructor; [apply IH|exact IHts].
Qed.
Lemma aobj_ind2 (P : aobj -> Prop) :
  (forall tag c, P (APrim tag c)) -> (forall tag ts, Forall P ts -> P (AStruct tag ts)) -> forall t, P t.
Proof.
  intros H1 H2. fix IH 1. intros [tag ts|tag c]; [|apply H1]. apply H2.
  induction ts as [|t ts IHts]; constructor; [apply IH|exact IHts].
Qed.

Lemma der_encode : (forall t b, der t b -> Z.of_nat (length b) < 2 ^ 63 -> b = encode_obj (of_tree t)) /\
  (forall ts bs, ders ts bs -> Z.of_nat (length bs) < 2 ^ 63 -> bs = flat_map encode_obj (map of_tree ts)).
Proof.
  apply der_ders_ind.
  - intros tag c l Ht Hc Hl Hn. rewrite !app_length in Hn. cbn [of_tree encode_obj].
    rewrite (der_len_unique (Z.of_nat (length c)) l) by (auto; lia). reflexivity.
  - intros tag ts bs l Ht Hb IH Hl Hn. rewrite !app_length in Hn. cbn [of_tree].
    rewrite encode_struct, <- IH by lia. rewrite (der_len_unique (Z.of_nat (length bs)) l) by (auto; lia). reflexivity.
  - reflexivity.
  - intros t ts b bs Hb IHb Hbs IHbs Hn. rewrite app_length in Hn. cbn [map flat_map].
    rewrite <- IHb, <- IHbs by lia. reflexivity.
Qed.

(** * Well-formed objects *)
Inductive wf_obj : aobj -> Prop :=
| wf_prim tag c : tag_octets false tag -> bytes_ok c = true -> wf_obj (APrim tag c)
| wf_struct tag ts : tag_octets true tag -> Forall wf_obj ts -> wf_obj (AStruct tag ts).

Fixpoint to_tree (o : aobj) : tree :=
  match o with
  | APrim tag c => Prim tag c
  | AStruct tag ts => Cons tag (map to_tree ts)
  end.

Lemma encode_obj_der o : wf_obj o -> Z.of_nat (length (encode_obj o)) < 2 ^ 63 ->
  der (to_tree o) (encode_obj o).
Proof.
  induction o as [tag c|tag ts IH] using aobj_ind2; intros Hw Hn.
  - inversion Hw; subst. cbn [to_tree encode_obj] in *. rewrite !app_length in Hn.
    apply der_prim; auto. apply encode_length_der. lia.
  - inversion Hw as [|tag' ts' Ht Hts]; subst. rewrite encode_struct in *. rewrite !app_length in Hn.
    cbn [to_tree]. apply der_cons; auto; [|apply encode_length_der; lia].
    assert (Hs : Z.of_nat (length (flat_map encode_obj ts)) < 2 ^ 63) by lia. clear Hw Ht Hn.
    induction ts as [|t ts IHts]; [constructor|].
    inversion IH; subst. inversion Hts; subst. cbn [flat_map map] in *. rewrite app_length in Hs.
    constructor; [|apply IHts; auto; lia]. match goal with H : wf_obj t -> _ |- _ => apply H; auto; lia end.
Qed.

(** * Access lemmas *)
Lemma at_app pre x post : at_ (pre ++ x :: post) (length pre) = BOk x.
Proof. unfold at_. rewrite nth_error_app2 by lia. rewrite Nat.sub_diag. reflexivity. Qed.

Lemma slice_app a b c : slice (a ++ b ++ c) (length a) (length a + length b) = b.
Proof.
  unfold slice. replace (length a + length b - length a)%nat with (length b) by lia.
  rewrite skipn_app, skipn_all, Nat.sub_diag. cbn [app skipn].
  rewrite firstn_app, firstn_all, Nat.sub_diag. cbn [firstn]. apply app_nil_r.
Qed.

Lemma slice_ok l i j : bytes_ok l = true -> bytes_ok (slice l i j) = true.
Proof. intros H. apply bytes_ok_firstn, bytes_ok_skipn, H. Qed.

Lemma nth_bytes_ok l i b : bytes_ok l = true -> nth_error l i = Some b -> 0 <= b < 256.
Proof.
  intros O H. apply nth_error_In in H. unfold bytes_ok in O. rewrite forallb_forall in O.
  specialize (O b H). unfold byte_ok in O. lia.
Qed.

Lemma low_bits b : 0 <= b < 256 -> Z.land b 31 = b mod 32 /\ (Z.land b 32 =? 0) = ((b / 32) mod 2 =? 0).
Proof.
  intros H.
  assert (B : forallb (fun b => (Z.land b 31 =? b mod 32) && Bool.eqb (Z.land b 32 =? 0) ((b / 32) mod 2 =? 0)) all_bytes = true) by (vm_compute; reflexivity).
  rewrite forallb_forall in B. specialize (B b (in_all_bytes b H)).
  apply andb_true_iff in B as [B1 B2]. apply Bool.eqb_prop in B2. split; [lia|exact B2].
Qed.

Lemma land127 l : 128 < l < 256 -> Z.land l 127 = l - 128.
Proof.
  intros H. change 127 with (Z.ones 7). rewrite Z.land_ones by lia. change (2 ^ 7) with 128. lia.
Qed.

(** * Reading headers of well-formed encodings *)
Lemma tag_end_spec mid : forall fuel pre last post, Forall (fun x => 128 <= x < 256) mid -> 0 <= last < 128 ->
  (length mid < fuel)%nat ->
  tag_end fuel (pre ++ mid ++ last :: post) (length pre) = BOk (length pre + length mid + 1)%nat.
Proof.
  induction mid as [|x mid IH]; intros fuel pre last post Hm Hl Hf.
  - destruct fuel as [|f]; [lia|]. cbn [app tag_end]. rewrite at_app. cbn [bbind length].
    destruct (128 <=? last) eqn:E; [lia|]. f_equal. lia.
  - inversion Hm as [|x' m' Hx Hm']; subst. destruct fuel as [|f]; [cbn in Hf; lia|].
    cbn [app tag_end]. rewrite at_app. cbn [bbind].
    destruct (128 <=? x) eqn:E; [|lia].
    specialize (IH f (pre ++ [x]) last post Hm' Hl ltac:(cbn in Hf; lia)).
    rewrite <- app_assoc in IH. cbn [app] in IH. rewrite app_length in IH. cbn [length] in IH.
    replace (S (length pre)) with (length pre + 1)%nat by lia. rewrite IH. f_equal. cbn [length]. lia.
Qed.

Lemma read_tag c tag pre post : tag_octets c tag ->
  bbind (at_ (pre ++ tag ++ post) (length pre)) (fun b =>
    bbind (if Z.land b 31 =? 31 then tag_end (S (length (pre ++ tag ++ post))) (pre ++ tag ++ post) (S (length pre)) else BOk (S (length pre)))
     (fun te => BOk (negb (Z.land b 32 =? 0), te))) = BOk (c, (length pre + length tag)%nat).
Proof.
  intros Ht. destruct Ht as [b Hb Hm Hc|b mid last Hb Hm Hc Hmid Hl].
  - cbn [app]. rewrite at_app. cbn [bbind]. destruct (low_bits b Hb) as [L1 L2]. rewrite L1, L2.
    destruct (b mod 32 =? 31) eqn:E; [lia|]. cbn [bbind length]. f_equal. f_equal; [|lia].
    rewrite Hc. destruct c; reflexivity.
  - cbn [app]. rewrite at_app. cbn [bbind]. destruct (low_bits b Hb) as [L1 L2]. rewrite L1, L2.
    destruct (b mod 32 =? 31) eqn:E; [|lia].
    pose proof (tag_end_spec mid (S (length (pre ++ b :: (mid ++ [last]) ++ post))) (pre ++ [b]) last post Hmid Hl) as T.
    assert (EQ : (pre ++ [b]) ++ mid ++ last :: post = pre ++ b :: (mid ++ [last]) ++ post).
    { rewrite <- !app_assoc. reflexivity. }
    rewrite EQ in T.
    assert (LQ : length (pre ++ [b]) = S (length pre)) by (rewrite app_length; cbn [length]; lia).
    rewrite LQ in T.
    rewrite T by (rewrite !app_length; cbn [length]; rewrite !app_length; lia).
    cbn [bbind]. f_equal. f_equal; [rewrite Hc; destruct c; reflexivity|].
    cbn [length]. rewrite app_length. cbn [length]. lia.
Qed.

Lemma read_length_spec ds : forall pre post acc,
  read_length (length ds) (pre ++ ds ++ post) (length pre) acc
  = BOk (acc * 256 ^ Z.of_nat (length ds) + bval ds, (length pre + length ds)%nat).
Proof.
  induction ds as [|d ds IH]; intros pre post acc.
  - cbn [length read_length bval]. f_equal. f_equal; [cbn; lia|lia].
  - cbn [length read_length app]. rewrite at_app. cbn [bbind bval].
    specialize (IH (pre ++ [d]) post (acc * 256 + d)). rewrite <- app_assoc in IH. cbn [app] in IH.
    rewrite app_length in IH. cbn [length] in IH.
    replace (S (length pre)) with (length pre + 1)%nat by lia. rewrite IH. f_equal. f_equal; [|lia].
    rewrite pow256_S. lia.
Qed.

(** the header of a definite-length encoding *)
Lemma read_header_def c tag l n pre post : tag_octets c tag -> len_octets n l -> 0 <= n < 2 ^ 31 ->
  n <= Z.of_nat (length post) ->
  read_header (pre ++ tag ++ l ++ post) (length pre)
  = BOk (c, false, length pre + length tag, length pre + length tag + length l,
         length pre + length tag + length l + Z.to_nat n)%nat.
Proof.
  intros Ht Hl Hn Hp. unfold read_header.
  pose proof (read_tag c tag pre (l ++ post) Ht) as RT.
  set (ber := pre ++ tag ++ l ++ post) in *.
  destruct (at_ ber (length pre)) as [b| | |]; try discriminate RT. cbn [bbind] in *.
  destruct (if Z.land b 31 =? 31 then tag_end (S (length ber)) ber (S (length pre)) else BOk (S (length pre))) as [te| | |]; try discriminate RT.
  cbn [bbind] in *. injection RT as RT1 RT2. rewrite RT1, RT2. clear RT1 RT2 b te.
  assert (EB : ber = (pre ++ tag) ++ l ++ post) by (subst ber; rewrite <- app_assoc; reflexivity).
  assert (LB : Z.of_nat (length ber) = Z.of_nat (length pre + length tag + length l) + Z.of_nat (length post)).
  { subst ber. rewrite !app_length. lia. }
  destruct Hl as [n Hs|k ds n Hk Hk2 O Hd V].
  - rewrite EB. rewrite nth_error_app2 by (rewrite app_length; lia).
    rewrite app_length, Nat.sub_diag. cbn [app nth_error].
    destruct (128 <? n) eqn:E1; [lia|]. destruct (n =? 128) eqn:E2; [lia|]. cbn [bbind].
    change ((pre ++ tag) ++ n :: post) with ((pre ++ tag) ++ [n] ++ post). rewrite <- EB. cbn [length] in *.
    destruct (Z.of_nat (length ber) <? Z.of_nat (S (length pre + length tag)) + n) eqn:E3; [lia|].
    cbn [andb]. replace (S (length pre + length tag)) with (length pre + length tag + 1)%nat by lia. reflexivity.
  - rewrite addr_val_bval in V. destruct (hd_bval ds O Hd) as [Hne Hlo].
    assert (Hk4 : (k <= 4)%nat).
    { destruct (Nat.le_gt_cases k 4) as [|Hgt]; [assumption|].
      pose proof (pow256_le 4 (length ds - 1) ltac:(lia)). change (256 ^ Z.of_nat 4) with (2 ^ 32) in H. lia. }
    rewrite EB at 1. rewrite nth_error_app2 by (rewrite app_length; lia).
    rewrite app_length, Nat.sub_diag. cbn [app nth_error].
    destruct (128 <? 128 + Z.of_nat k) eqn:E1; [|lia].
    rewrite land127 by lia. replace (128 + Z.of_nat k - 128) with (Z.of_nat k) by lia.
    destruct (4 <? Z.of_nat k) eqn:E2; [lia|].
    destruct ds as [|d ds]; [contradiction|].
    assert (EB2 : ber = (pre ++ tag ++ [128 + Z.of_nat k]) ++ (d :: ds) ++ post).
    { rewrite EB. rewrite <- !app_assoc. reflexivity. }
    assert (LP : S (length pre + length tag) = length (pre ++ tag ++ [128 + Z.of_nat k])).
    { rewrite !app_length. cbn [length]. lia. }
    rewrite LP. rewrite EB2 at 1. cbn [app]. rewrite at_app. cbn [bbind].
    cbn [hd] in Hd. apply bytes_ok_cons in O as [Od O].
    destruct ((Z.of_nat k =? 4) && (127 <? d)) eqn:E3.
    { exfalso. cbn [length bval] in *. assert (length ds = 3%nat) by lia. rewrite H in V.
      change (256 ^ Z.of_nat 3) with 16777216 in V. pose proof (bval_bound ds O). lia. }
    destruct (d =? 0) eqn:E4; [lia|].
    rewrite Nat2Z.id.
    pose proof (read_length_spec (d :: ds) (pre ++ tag ++ [128 + Z.of_nat k]) post 0) as RL.
    rewrite Hk, <- EB2, V, <- LP in RL. rewrite <- LP, RL. cbn [bbind fst snd].
    change (0 * 256 ^ Z.of_nat k + n) with n.
    cbn [length] in LB, Hk |- *.
    destruct (Z.of_nat (length ber) <? Z.of_nat (S (length pre + length tag) + k) + n) eqn:E5; [lia|].
    cbn [andb].
    replace (S (length pre + length tag) + k)%nat with (length pre + length tag + S (S (length ds)))%nat by lia. reflexivity.
Qed.

Lemma read_header_indef tag pre post : tag_octets true tag ->
  read_header (pre ++ tag ++ 128 :: post) (length pre)
  = BOk (true, true, length pre + length tag, length pre + length tag + 1,
         length pre + length tag + 1)%nat.
Proof.
  intros Ht. unfold read_header.
  pose proof (read_tag true tag pre (128 :: post) Ht) as RT.
  set (ber := pre ++ tag ++ 128 :: post) in *.
  destruct (at_ ber (length pre)) as [b| | |]; try discriminate RT. cbn [bbind] in *.
  destruct (if Z.land b 31 =? 31 then tag_end (S (length ber)) ber (S (length pre)) else BOk (S (length pre))) as [te| | |]; try discriminate RT.
  cbn [bbind] in *. injection RT as RT1 RT2. rewrite RT1, RT2. clear RT1 RT2 b te.
  assert (EB : ber = (pre ++ tag) ++ 128 :: post) by (subst ber; rewrite <- app_assoc; reflexivity).
  assert (LB : Z.of_nat (length ber) = Z.of_nat (length pre + length tag) + 1 + Z.of_nat (length post)).
  { subst ber. rewrite !app_length. cbn [length]. lia. }
  rewrite EB. rewrite nth_error_app2 by (rewrite app_length; lia).
  rewrite app_length, Nat.sub_diag. cbn [nth_error]. cbn [Z.ltb Z.eqb Z.compare Pos.compare Pos.compare_cont Pos.eqb bbind].
  rewrite <- EB.
  destruct (Z.of_nat (length ber) <? Z.of_nat (S (length pre + length tag)) + 0) eqn:E3; [lia|].
  cbn [andb negb]. rewrite Nat.add_0_r.
  replace (S (length pre + length tag)) with (length pre + length tag + 1)%nat by lia. reflexivity.
Qed.

Lemma is_term_true pre post : is_term (pre ++ 0 :: 0 :: post) (length pre) = BOk true.
Proof.
  unfold is_term. rewrite app_length. cbn [length].
  destruct (Z.of_nat (length pre + S (S (length post))) - Z.of_nat (length pre) <? 2) eqn:E; [lia|].
  rewrite !nth_error_app2 by lia. rewrite Nat.sub_diag.
  replace (S (length pre) - length pre)%nat with 1%nat by lia. reflexivity.
Qed.

Lemma is_term_false pre b post : (2 <= length b)%nat -> firstn 2 b <> [0; 0] ->
  is_term (pre ++ b ++ post) (length pre) = BOk false.
Proof.
  intros Hl Hb. destruct b as [|x [|y b]]; try (cbn in Hl; lia). cbn [firstn] in Hb.
  unfold is_term. rewrite !app_length. cbn [length].
  destruct (_ <? 2) eqn:E; [lia|]. cbn [app].
  rewrite !nth_error_app2 by lia. rewrite Nat.sub_diag.
  replace (S (length pre) - length pre)%nat with 1%nat by lia. cbn [nth_error].
  destruct ((x =? 0) && (y =? 0)) eqn:E2; [|reflexivity]. exfalso. apply Hb.
  f_equal; [lia|f_equal; lia].
Qed.

Lemma tag_len c tag : tag_octets c tag -> (1 <= length tag)%nat.
Proof. intros [b|b mid last]; cbn; lia. Qed.
Lemma len_len n l : len_octets n l -> (1 <= length l)%nat.
Proof. intros H; destruct H; cbn; lia. Qed.

Lemma ber_len : (forall t b, ber t b -> (2 <= length b)%nat) /\ (forall i ts bs, bers i ts bs -> True).
Proof.
  apply ber_bers_ind; intros; auto; rewrite !app_length; cbn [length];
  repeat match goal with H : tag_octets _ _ |- _ => apply tag_len in H | H : len_octets _ _ |- _ => apply len_len in H end; lia.
Qed.

(** * Main lemma: a BER encoding is read as its tree *)
Lemma read_ber :
  (forall t b, ber t b -> forall fuel pre post, (2 * length b <= fuel)%nat ->
     read_object fuel (pre ++ b ++ post) (length pre) = BOk (of_tree t, (length pre + length b)%nat)) /\
  (forall i ts bs, bers i ts bs -> forall fuel pre post, (2 * length bs + 1 <= fuel)%nat ->
     (i = false -> forall cend, cend = (length pre + length bs)%nat ->
        read_loop fuel (pre ++ bs ++ post) (length pre) cend false = BOk (map of_tree ts, cend)) /\
     (i = true -> ts <> [] -> forall cend,
        read_loop fuel (pre ++ bs ++ 0 :: 0 :: post) (length pre) cend true
        = BOk (map of_tree ts, (length pre + length bs)%nat))).
Proof.
  apply ber_bers_ind.
  - intros tag c l Ht Hc Hn Hl fuel pre post Hf.
    pose proof (tag_len _ _ Ht) as TL. pose proof (len_len _ _ Hl) as LL.
    rewrite !app_length in Hf. destruct fuel as [|f]; [lia|]. cbn [read_object].
    rewrite <- !app_assoc.
    rewrite (read_header_def false tag l _ pre (c ++ post) Ht Hl ltac:(lia)) by (rewrite app_length; lia).
    cbn [bbind]. rewrite Nat2Z.id. rewrite slice_app. cbn [of_tree].
    replace (pre ++ tag ++ l ++ c ++ post) with ((pre ++ tag ++ l) ++ c ++ post) by (rewrite <- !app_assoc; reflexivity).
    replace (length pre + length tag + length l)%nat with (length (pre ++ tag ++ l)) by (rewrite !app_length; lia).
    rewrite slice_app. rewrite !app_length. f_equal. f_equal. lia.
  - intros tag ts bs l Ht Hb IH Hn Hl fuel pre post Hf.
    pose proof (tag_len _ _ Ht) as TL. pose proof (len_len _ _ Hl) as LL.
    rewrite !app_length in Hf. destruct fuel as [|f]; [lia|]. cbn [read_object].
    rewrite <- !app_assoc.
    rewrite (read_header_def true tag l _ pre (bs ++ post) Ht Hl ltac:(lia)) by (rewrite app_length; lia).
    cbn [bbind]. rewrite Nat2Z.id. rewrite slice_app. cbn [of_tree].
    replace (pre ++ tag ++ l ++ bs ++ post) with ((pre ++ tag ++ l) ++ bs ++ post) by (rewrite <- !app_assoc; reflexivity).
    replace (length pre + length tag + length l)%nat with (length (pre ++ tag ++ l)) by (rewrite !app_length; lia).
    destruct (IH f (pre ++ tag ++ l) post ltac:(lia)) as [IH1 _].
    rewrite (IH1 eq_refl _ eq_refl). cbn [bbind fst snd]. rewrite !app_length. f_equal. f_equal. lia.
  - intros tag ts bs Ht Hb IH Hne fuel pre post Hf.
    pose proof (tag_len _ _ Ht) as TL.
    rewrite app_length in Hf. cbn [length] in Hf. rewrite app_length in Hf. destruct fuel as [|f]; [lia|]. cbn [read_object].
    replace (pre ++ (tag ++ 128 :: bs ++ [0; 0]) ++ post) with (pre ++ tag ++ 128 :: bs ++ 0 :: 0 :: post)
      by (rewrite <- !app_assoc; cbn [app]; rewrite <- !app_assoc; reflexivity).
    rewrite (read_header_indef tag pre _ Ht). cbn [bbind]. rewrite slice_app. cbn [of_tree].
    replace (pre ++ tag ++ 128 :: bs ++ 0 :: 0 :: post) with ((pre ++ tag ++ [128]) ++ bs ++ 0 :: 0 :: post) by (rewrite <- !app_assoc; reflexivity).
    replace (length pre + length tag + 1)%nat with (length (pre ++ tag ++ [128])) by (rewrite !app_length; cbn [length]; lia).
    destruct (IH f (pre ++ tag ++ [128]) post ltac:(cbn [length] in Hf; lia)) as [_ IH2].
    rewrite (IH2 eq_refl Hne). cbn [bbind fst snd]. rewrite !app_length. cbn [length]. rewrite app_length. cbn [length]. f_equal. f_equal. lia.
  - intros i fuel pre post Hf. cbn [length] in Hf. split; [|intros _ H; contradiction].
    intros _ cend ->. destruct fuel as [|f]; [lia|]. cbn [read_loop length map].
    destruct (Nat.ltb_spec (length pre) (length pre + 0)); [lia|]. cbn [orb].
    f_equal. f_equal. lia.
  - intros i t ts b bs Hb IHb Hbs IHbs Hi fuel pre post Hf.
    pose proof (proj1 ber_len _ _ Hb) as BL. rewrite app_length in Hf.
    destruct fuel as [|f]; [lia|]. split.
    + intros -> cend ->. cbn [read_loop]. rewrite app_length.
      destruct (Nat.ltb_spec (length pre) (length pre + (length b + length bs))); [|lia]. cbn [orb].
      rewrite <- app_assoc. rewrite IHb by lia. cbn [bbind].
      destruct (IHbs f (pre ++ b) post ltac:(lia)) as [IH1 _].
      rewrite <- app_assoc in IH1. rewrite app_length in IH1.
      rewrite (IH1 eq_refl (length pre + (length b + length bs))%nat ltac:(lia)).
      cbn [bbind fst snd map]. reflexivity.
    + intros -> _ cend. cbn [read_loop]. rewrite orb_true_r.
      rewrite <- app_assoc. rewrite IHb by lia. cbn [bbind].
      inversion Hbs as [i0 Ei Ets Ebs|i0 t2 ts2 b2 bs2 Hb2 Hbs2 Hi2 Ei Ets Ebs]; subst.
      * cbn [app]. replace (pre ++ b ++ 0 :: 0 :: post) with ((pre ++ b) ++ 0 :: 0 :: post) by (rewrite <- app_assoc; reflexivity).
        replace (length pre + length b)%nat with (length (pre ++ b)) by (rewrite app_length; lia).
        rewrite is_term_true. cbn [bbind map]. rewrite app_nil_r, app_length. reflexivity.
      * destruct (IHbs f (pre ++ b) post ltac:(lia)) as [_ IH2].
        rewrite <- app_assoc in IH2. rewrite app_length in IH2.
        replace (is_term _ _) with (BOk false).
        2:{ symmetry. pose proof (is_term_false (pre ++ b) b2 (bs2 ++ 0 :: 0 :: post) (proj1 ber_len _ _ Hb2) (Hi2 eq_refl)) as IT.
            rewrite app_length in IT. rewrite <- !app_assoc in IT. rewrite <- !app_assoc. exact IT. }
        cbn [bbind]. rewrite (IH2 eq_refl ltac:(discriminate)). cbn [bbind fst snd map].
        rewrite !app_length. f_equal. f_equal. lia.
Qed.

Lemma ber2der_ber t b post : ber t b -> ber2der (b ++ post) = BOk (encode_obj (of_tree t)).
Proof.
  intros H. pose proof (proj1 ber_len _ _ H) as L. unfold ber2der.
  destruct (b ++ post) as [|x r] eqn:E.
  { apply app_eq_nil in E as [-> _]. cbn in L. lia. }
  rewrite <- E. pose proof (proj1 read_ber t b H (2 * length (b ++ post) + 2)%nat [] post) as R.
  cbn [app length] in R. rewrite R by (rewrite app_length; lia). reflexivity.
Qed.

(** DER is BER *)
Lemma der_ber : (forall t b, der t b -> Z.of_nat (length b) < 2 ^ 31 -> ber t b) /\
  (forall ts bs, ders ts bs -> Z.of_nat (length bs) < 2 ^ 31 -> bers false ts bs).
Proof.
  apply der_ders_ind.
  - intros tag c l Ht Hc Hl Hn. rewrite !app_length in Hn. apply ber_prim; auto; [lia|apply Hl].
  - intros tag ts bs l Ht Hb IH Hl Hn. rewrite !app_length in Hn. apply ber_def; auto; [apply IH; lia|lia|apply Hl].
  - constructor.
  - intros t ts b bs Hb IHb Hbs IHbs Hn. rewrite app_length in Hn. constructor; [apply IHb; lia|apply IHbs; lia|discriminate].
Qed.

Lemma ber2der_der t b : der t b -> Z.of_nat (length b) < 2 ^ 31 -> forall post, ber2der (b ++ post) = BOk b.
Proof.
  intros H Hn post. rewrite (ber2der_ber t b post (proj1 der_ber t b H Hn)).
  f_equal. symmetry. apply (proj1 der_encode t b H). lia.
Qed.

(** * Progress and absence of fuel exhaustion, for all inputs *)
Lemma tag_end_gt fuel : forall ber off te, tag_end fuel ber off = BOk te -> (off < te <= length ber)%nat.
Proof.
  induction fuel as [|f IH]; intros ber off te H; [discriminate|]. cbn [tag_end] in H. unfold at_ in H.
  destruct (nth_error ber off) as [b|] eqn:E; cbn [bbind] in H; [|discriminate].
  assert (off < length ber)%nat by (apply nth_error_Some; rewrite E; discriminate).
  destruct (128 <=? b); [apply IH in H; lia|]. injection H as <-. lia.
Qed.

Lemma tag_end_fuel fuel : forall ber off, (length ber - off < fuel)%nat -> tag_end fuel ber off <> BFuel.
Proof.
  induction fuel as [|f IH]; intros ber off H; [lia|]. cbn [tag_end]. unfold at_.
  destruct (nth_error ber off) as [b|] eqn:E; cbn [bbind]; [|discriminate].
  assert (off < length ber)%nat by (apply nth_error_Some; rewrite E; discriminate).
  destruct (128 <=? b); [apply IH; lia|discriminate].
Qed.

Lemma read_length_ok n : forall ber off acc, match read_length n ber off acc with
  | BOk (_, o) => o = (off + n)%nat | BFuel => False | _ => True end.
Proof.
  induction n as [|n IH]; intros ber off acc; cbn [read_length]; [lia|].
  unfold at_. destruct (nth_error ber off) as [b|]; cbn [bbind]; [|exact I].
  specialize (IH ber (S off) (acc * 256 + b)). destruct (read_length n ber (S off) (acc * 256 + b)) as [[v o]| | |]; auto. lia.
Qed.

Lemma read_length_nonneg n : forall ber off acc v o, bytes_ok ber = true -> 0 <= acc ->
  read_length n ber off acc = BOk (v, o) -> 0 <= v.
Proof.
  induction n as [|n IH]; intros ber off acc v o O Ha H; cbn [read_length] in H.
  - injection H as <- _. exact Ha.
  - unfold at_ in H. destruct (nth_error ber off) as [b|] eqn:E; cbn [bbind] in H; [|discriminate].
    pose proof (nth_bytes_ok _ _ _ O E). apply (IH _ _ _ _ _ O) in H; lia.
Qed.

Lemma read_header_facts ber off : match read_header ber off with
  | BOk (c, i, te, o2, ce) => (off < te)%nat /\ (te < o2)%nat /\ (o2 <= ce)%nat /\ (i = true -> c = true) /\ (i = true -> ce = o2) /\
      (te < length ber)%nat /\ Z.of_nat o2 <= Z.of_nat (length ber)
  | BFuel => False | _ => True end \/ bytes_ok ber = false.
Proof.
  destruct (bytes_ok ber) eqn:O; [left|right; reflexivity].
  unfold read_header. unfold at_ at 1. destruct (nth_error ber off) as [b|] eqn:E; cbn [bbind]; [|exact I].
  assert (off < length ber)%nat by (apply nth_error_Some; rewrite E; discriminate).
  assert (TE : match (if Z.land b 31 =? 31 then tag_end (S (length ber)) ber (S off) else BOk (S off)) with
    | BOk te => (off < te)%nat | BFuel => False | _ => True end).
  { destruct (Z.land b 31 =? 31); [|lia]. pose proof (tag_end_fuel (S (length ber)) ber (S off) ltac:(lia)) as TF.
    destruct (tag_end (S (length ber)) ber (S off)) as [te| | |] eqn:T; auto. apply tag_end_gt in T. lia. }
  destruct (if Z.land b 31 =? 31 then _ else _) as [te| | |]; cbn [bbind]; auto.
  destruct (nth_error ber te) as [l|] eqn:El; [|exact I].
  assert (te < length ber)%nat by (apply nth_error_Some; rewrite El; discriminate).
  pose proof (nth_bytes_ok _ _ _ O El) as Hl.
  match goal with |- match bbind ?x ?k with _ => _ end => set (lenr := x); set (kk := k) end.
  assert (LR : match lenr with BOk (len, o2, i) => (te < o2)%nat /\ 0 <= len /\ (i = true -> len = 0) | BFuel => False | _ => True end).
  { subst lenr. destruct (128 <? l) eqn:E1.
    - destruct (4 <? Z.land l 127); [exact I|]. unfold at_.
      destruct (nth_error ber (S te)) as [b0|]; cbn [bbind]; [|exact I].
      destruct (_ && _); [exact I|]. destruct (b0 =? 0); [exact I|].
      pose proof (read_length_ok (Z.to_nat (Z.land l 127)) ber (S te) 0) as R.
      destruct (read_length _ ber (S te) 0) as [[v o]| | |] eqn:RL; cbn [bbind fst snd]; auto.
      apply read_length_nonneg in RL; [|exact O|lia]. repeat split; try lia.
    - destruct (l =? 128); repeat split; lia. }
  destruct lenr as [[[len o2] i]| | |]; cbn [bbind]; auto. subst kk. cbv beta iota.
  destruct (Z.of_nat (length ber) <? Z.of_nat o2 + len) eqn:E1; [exact I|].
  destruct (i && negb (negb (Z.land b 32 =? 0))) eqn:E2; [exact I|].
  repeat split; try lia.
  - intros ->. destruct (negb (Z.land b 32 =? 0)); [reflexivity|discriminate].
  - intros ->. destruct LR as (_ & _ & L3). rewrite (L3 eq_refl). cbn. lia.
Qed.

Lemma read_fuel fuel : forall ber, bytes_ok ber = true ->
  (forall off, (2 * (length ber - off) + 1 <= fuel)%nat ->
     match read_object fuel ber off with BOk (_, o) => (off < o)%nat | BFuel => False | _ => True end) /\
  (forall off cend indef, (2 * (length ber - off) + 2 <= fuel)%nat -> (cend <= length ber)%nat ->
     match read_loop fuel ber off cend indef with BOk (_, o) => (off <= o)%nat | BFuel => False | _ => True end).
Proof.
  induction fuel as [|f IH]; intros ber O; [split; intros; lia|].
  destruct (IH ber O) as [IH1 IH2]. split.
  - intros off Hf. cbn [read_object].
    destruct (read_header_facts ber off) as [RH|RH]; [|rewrite RH in O; discriminate].
    destruct (read_header ber off) as [[[[[c i] te] o2] ce]| | |] eqn:E; cbn [bbind]; auto.
    destruct RH as (H1 & H2 & H3 & H4 & H5 & H6 & H7).
    assert (CE : (ce <= length ber)%nat).
    { unfold read_header in E. unfold at_ at 1 in E. destruct (nth_error ber off); cbn [bbind] in E; [|discriminate].
      destruct (if Z.land z 31 =? 31 then _ else _) as [te'| | |]; cbn [bbind] in E; try discriminate.
      destruct (nth_error ber te') as [l|]; [|discriminate].
      match type of E with bbind ?x _ = _ => destruct x as [[[len o2'] i']| | |]; cbn [bbind] in E; try discriminate end.
      destruct (Z.of_nat (length ber) <? Z.of_nat o2' + len) eqn:E1; [discriminate|].
      destruct (_ && _); [discriminate|]. injection E as <- <- <- <- <-. lia. }
    destruct c.
    + specialize (IH2 o2 ce i ltac:(lia) CE).
      destruct (read_loop f ber o2 ce i) as [[os o]| | |]; cbn [bbind fst snd]; auto.
      destruct i; lia.
    + lia.
  - intros off cend indef Hf Hc. cbn [read_loop].
    destruct (Nat.ltb off cend || indef) eqn:E; [|lia].
    specialize (IH1 off ltac:(lia)).
    destruct (Nat.lt_ge_cases off (length ber)) as [Hlt|Hge].
    + destruct (read_object f ber off) as [[o off']| | |]; cbn [bbind]; auto.
      assert (R : match bbind (read_loop f ber off' cend indef) (fun r2 => BOk (o :: fst r2, snd r2)) with
        | BOk (_, o0) => (off <= o0)%nat | BFuel => False | _ => True end).
      { specialize (IH2 off' cend indef ltac:(lia) Hc).
        destruct (read_loop f ber off' cend indef) as [[os o2]| | |]; cbn [bbind fst snd]; auto. lia. }
      destruct indef; [|exact R]. unfold is_term.
      destruct (_ <? 2); cbn [bbind]; [exact I|].
      destruct (nth_error ber off') as [x|]; [destruct (nth_error ber (S off')) as [y|]|]; cbn [bbind].
      * destruct ((x =? 0) && (y =? 0)); [lia|exact R].
      * exact R.
      * exact R.
    + destruct f as [|f']; [lia|].
      replace (read_object (S f') ber off) with (@BPanic (aobj * nat)); [exact I|].
      cbn [read_object]. unfold read_header, at_ at 1.
      destruct (nth_error ber off) eqn:En; [|reflexivity].
      assert (off < length ber)%nat by (apply nth_error_Some; rewrite En; discriminate). lia.
Qed.

Lemma ber2der_terminates ber : bytes_ok ber = true -> ber2der ber <> BFuel.
Proof.
  intros O. unfold ber2der. destruct ber as [|x r]; [discriminate|]. set (b := x :: r) in *.
  destruct (read_fuel (2 * length b + 2) b O) as [R _]. specialize (R 0%nat ltac:(lia)).
  destruct (read_object (2 * length b + 2) b 0) as [[o off]| | |]; cbn [bbind]; try discriminate. contradiction.
Qed.

(** * Well-formedness of what is read *)
Lemma skipn_nth (l : bytes) : forall off b, nth_error l off = Some b -> skipn off l = b :: skipn (S off) l.
Proof.
  induction l as [|x l IH]; intros [|off] b H; try discriminate.
  - injection H as ->. reflexivity.
  - cbn [nth_error] in H. change (skipn (S off) (x :: l)) with (skipn off l). rewrite (IH off b H). reflexivity.
Qed.

Lemma slice_nth (l : bytes) off k b : nth_error l off = Some b -> (off < k)%nat -> slice l off k = b :: slice l (S off) k.
Proof.
  intros H Hk. unfold slice. rewrite (skipn_nth l off b H).
  replace (k - off)%nat with (S (k - S off)) by lia. reflexivity.
Qed.

Lemma tag_end_octets fuel : forall ber off te, bytes_ok ber = true -> tag_end fuel ber off = BOk te ->
  exists mid last, slice ber off te = mid ++ [last] /\ Forall (fun x => 128 <= x < 256) mid /\ 0 <= last < 128.
Proof.
  induction fuel as [|f IH]; intros ber off te O H; [discriminate|]. cbn [tag_end] in H. unfold at_ in H.
  destruct (nth_error ber off) as [b|] eqn:E; cbn [bbind] in H; [|discriminate].
  pose proof (nth_bytes_ok _ _ _ O E) as Hb.
  assert (SL : forall k, (off < k)%nat -> slice ber off k = b :: slice ber (S off) k) by (intros k Hk; apply slice_nth; assumption).
  destruct (128 <=? b) eqn:Eb.
  - pose proof (tag_end_gt _ _ _ _ H) as G. destruct (IH _ _ _ O H) as (mid & last & E1 & Hm & Hl).
    exists (b :: mid), last. rewrite SL by lia. rewrite E1. repeat split; auto; try lia. constructor; [lia|exact Hm].
  - injection H as <-. exists [], b. rewrite SL by lia. unfold slice. rewrite Nat.sub_diag. cbn. repeat split; auto; lia.
Qed.

Lemma read_header_tag ber off c i te o2 ce : bytes_ok ber = true ->
  read_header ber off = BOk (c, i, te, o2, ce) -> tag_octets c (slice ber off te).
Proof.
  intros O H. unfold read_header in H. unfold at_ at 1 in H.
  destruct (nth_error ber off) as [b|] eqn:E; cbn [bbind] in H; [|discriminate].
  pose proof (nth_bytes_ok _ _ _ O E) as Hb. destruct (low_bits b Hb) as [L1 L2].
  assert (HH : exists te', (if Z.land b 31 =? 31 then tag_end (S (length ber)) ber (S off) else BOk (S off)) = BOk te' /\ te' = te /\ c = negb (Z.land b 32 =? 0)).
  { destruct (if Z.land b 31 =? 31 then tag_end (S (length ber)) ber (S off) else BOk (S off)) as [te'| | |]; cbn [bbind] in H; try discriminate.
    destruct (nth_error ber te') as [l|]; [|discriminate]. exists te'. split; [reflexivity|].
    match type of H with bbind ?x _ = _ => destruct x as [[[len o2'] i']| | |]; cbn [bbind] in H; try discriminate end.
    destruct (Z.of_nat (length ber) <? Z.of_nat o2' + len); [discriminate|].
    destruct (_ && _); [discriminate|]. injection H as <- <- <- <- <-. auto. }
  clear H. destruct HH as (te' & H & -> & ->). rewrite L2. rewrite L1 in H.
  assert (Hk : (b / 32) mod 2 = (if negb ((b / 32) mod 2 =? 0) then 1 else 0)).
  { destruct ((b / 32) mod 2 =? 0) eqn:E0; cbn [negb]; lia. }
  destruct (b mod 32 =? 31) eqn:E31.
  - pose proof (tag_end_gt _ _ _ _ H) as G. destruct (tag_end_octets _ _ _ _ O H) as (mid & last & E1 & Hm & Hl).
    rewrite (slice_nth ber off te b E) by lia. rewrite E1. apply tag_high; auto; lia.
  - injection H as <-. rewrite (slice_nth ber off (S off) b E) by lia. unfold slice. rewrite Nat.sub_diag.
    cbn [firstn]. apply tag_low; auto; lia.
Qed.

Lemma read_wf fuel : forall ber, bytes_ok ber = true ->
  (forall off o off', read_object fuel ber off = BOk (o, off') -> wf_obj o) /\
  (forall off cend indef os off', read_loop fuel ber off cend indef = BOk (os, off') -> Forall wf_obj os).
Proof.
  induction fuel as [|f IH]; intros ber O; [split; intros; discriminate|].
  destruct (IH ber O) as [IH1 IH2]. split.
  - intros off o off' H. cbn [read_object] in H.
    destruct (read_header ber off) as [[[[[c i] te] o2] ce]| | |] eqn:E; cbn [bbind] in H; try discriminate.
    apply (read_header_tag _ _ _ _ _ _ _ O) in E. destruct c.
    + destruct (read_loop f ber o2 ce i) as [[os o']| | |] eqn:L; cbn [bbind fst snd] in H; try discriminate.
      injection H as <- <-. constructor; [exact E|]. apply (IH2 _ _ _ _ _ L).
    + injection H as <- <-. constructor; [exact E|]. apply slice_ok, O.
  - intros off cend indef os off' H. cbn [read_loop] in H.
    destruct (Nat.ltb off cend || indef); [|injection H as <- <-; constructor].
    destruct (read_object f ber off) as [[o o']| | |] eqn:R; cbn [bbind] in H; try discriminate.
    apply IH1 in R.
    assert (G : forall os off', bbind (read_loop f ber o' cend indef) (fun r2 => BOk (o :: fst r2, snd r2)) = BOk (os, off') -> Forall wf_obj os).
    { intros os0 off0 H0. destruct (read_loop f ber o' cend indef) as [[os2 o2]| | |] eqn:L; cbn [bbind fst snd] in H0; try discriminate.
      injection H0 as <- <-. constructor; [exact R|]. apply (IH2 _ _ _ _ _ L). }
    destruct indef; [|apply (G _ _ H)].
    destruct (is_term ber o') as [t| | |]; cbn [bbind] in H; try discriminate.
    destruct t; [|apply (G _ _ H)]. injection H as <- <-. constructor; [exact R|constructor].
Qed.

Lemma ber2der_definite ber out : bytes_ok ber = true -> ber2der ber = BOk out -> Z.of_nat (length out) < 2 ^ 63 ->
  exists t, der t out.
Proof.
  intros O H Hn. unfold ber2der in H. destruct ber as [|x r]; [discriminate|]. set (b := x :: r) in *.
  destruct (read_object (2 * length b + 2) b 0) as [[o off]| | |] eqn:R; cbn [bbind fst] in H; try discriminate.
  injection H as <-. destruct (read_wf (2 * length b + 2) b O) as [W _]. apply W in R.
  exists (to_tree o). apply encode_obj_der; assumption.
Qed.

Lemma ber2der_idempotent ber out : bytes_ok ber = true -> ber2der ber = BOk out -> Z.of_nat (length out) < 2 ^ 31 ->
  ber2der out = BOk out.
Proof.
  intros O H Hn. destruct (ber2der_definite ber out O H ltac:(lia)) as (t & Ht).
  rewrite <- (app_nil_r out) at 1. apply (ber2der_der t); assumption.
Qed.

(** * Size *)
Lemma encode_length_size n : 0 <= n < 256 ^ 8 -> (length (encode_length n) <= 9)%nat /\
  (forall m, 0 <= m -> 2 * m >= n -> (length (encode_length n) <= S (length (encode_length m)))%nat).
Proof.
  assert (SZ : forall x, 0 <= x < 256 ^ 8 ->
    (x < 128 /\ length (encode_length x) = 1%nat) \/
    (128 <= x /\ exists k, (1 <= k <= 8)%nat /\ length (encode_length x) = S k /\ 256 ^ Z.of_nat (k - 1) <= x < 256 ^ Z.of_nat k)).
  { intros x Hx. unfold encode_length. destruct (128 <=? x) eqn:E; [right|left; cbn; lia].
    split; [lia|]. destruct (length_length_bounds 8 x) as [B1 B2]; [split; [lia|]; change (256 ^ Z.of_nat 9) with (2 ^ 72); lia|].
    exists (length_length 8 x). split; [|split; [|exact B2]].
    - split; [lia|]. destruct (Nat.le_gt_cases (length_length 8 x) 8) as [|G]; [assumption|].
      pose proof (pow256_le 8 (length_length 8 x - 1) ltac:(lia)). change (Z.of_nat 8) with 8 in H. lia.
    - cbn [length]. f_equal. apply marshal_long_bval. lia. }
  intros Hn. split.
  - destruct (SZ n Hn) as [[_ ->]|(_ & k & Hk & -> & _)]; lia.
  - intros m Hm Hmn. destruct (Z_lt_le_dec m n) as [Hlt|Hge].
    + destruct (SZ n Hn) as [[_ ->]|(Hn1 & k & Hk & -> & Hkn)]; [lia|].
      destruct (SZ m ltac:(lia)) as [[Hm1 ->]|(Hm1 & j & Hj & -> & Hjm)].
      * assert (k = 1)%nat; [|lia]. destruct (Nat.le_gt_cases k 1) as [|G]; [lia|].
        pose proof (pow256_le 1 (k - 1) ltac:(lia)). cbn in H. lia.
      * destruct (Nat.le_gt_cases k (S j)) as [|G]; [lia|].
        pose proof (pow256_le (S j) (k - 1) ltac:(lia)). rewrite pow256_S in H. lia.
    + assert (MM : (length (encode_length n) <= length (encode_length m))%nat); [|lia].
      destruct (Z_lt_le_dec m (256 ^ 8)) as [Hms|Hmb].
      * destruct (SZ n Hn) as [[_ ->]|(Hn1 & k & Hk & -> & Hkn)];
        destruct (SZ m ltac:(lia)) as [[Hm1 ->]|(Hm1 & j & Hj & -> & Hjm)]; try lia.
        destruct (Nat.le_gt_cases k j) as [|G]; [lia|].
        pose proof (pow256_le j (k - 1) ltac:(lia)). lia.
      * transitivity 9%nat.
        { destruct (SZ n Hn) as [[_ ->]|(_ & k & Hk & -> & _)]; lia. }
        assert (GE : forall f x, 256 ^ Z.of_nat f <= x -> length_length f x = S f).
        { induction f as [|f IH]; intros x Hx; [reflexivity|]. cbn [length_length]. rewrite pow256_S in Hx.
          pose proof (pow256_pos f). destruct (255 <? x) eqn:E; [|lia]. f_equal. apply IH.
          rewrite Z.shiftr_div_pow2 by lia. change (2 ^ 8) with 256. apply Z.div_le_lower_bound; lia. }
        unfold encode_length. destruct (128 <=? m) eqn:E; [|lia]. rewrite GE by exact Hmb.
        cbn [length]. destruct (marshal_long_bval 9 m ltac:(lia)) as (-> & _). lia.
Qed.

Lemma len_octets_min n l : len_octets n l -> (length (encode_length n) <= length l)%nat \/ 2 ^ 63 <= n.
Proof.
  intros H. destruct (Z_lt_le_dec n (2 ^ 63)) as [Hn|]; [left|right; assumption].
  destruct (Z_lt_le_dec n 128) as [Hs|Hb].
  - unfold encode_length. destruct (128 <=? n) eqn:E; [lia|]. apply len_len in H. cbn. lia.
  - assert (D : der_len n l).
    { split; [exact H|]. destruct H as [n H|k ds n Hk Hk2 O Hd V]; [lia|]. cbn [length]. lia. }
    rewrite (der_len_unique n l Hn D). lia.
Qed.

Lemma size_bound :
  (forall t b, ber t b -> Z.of_nat (length b) < 2 ^ 47 -> (length (encode_obj (of_tree t)) + 2 <= 2 * length b)%nat) /\
  (forall i ts bs, bers i ts bs -> Z.of_nat (length bs) < 2 ^ 47 ->
     (length (flat_map encode_obj (map of_tree ts)) + 2 * length ts <= 2 * length bs)%nat).
Proof.
  apply ber_bers_ind.
  - intros tag c l Ht Hc Hn Hl Hs. cbn [of_tree encode_obj]. rewrite !app_length in *.
    destruct (len_octets_min _ _ Hl) as [M|M]; [|lia]. pose proof (tag_len _ _ Ht). pose proof (len_len _ _ Hl). lia.
  - intros tag ts bs l Ht Hb IH Hn Hl Hs. cbn [of_tree]. rewrite encode_struct. rewrite !app_length in *.
    specialize (IH ltac:(lia)). destruct (len_octets_min _ _ Hl) as [M|M]; [|lia].
    pose proof (tag_len _ _ Ht). pose proof (len_len _ _ Hl).
    set (m := length (flat_map encode_obj (map of_tree ts))) in *.
    destruct (encode_length_size (Z.of_nat m) ltac:(split; [lia|]; change (256 ^ 8) with (2 ^ 64); lia)) as [_ E].
    specialize (E (Z.of_nat (length bs)) ltac:(lia) ltac:(lia)).
    destruct ts as [|t ts].
    + subst m. cbn in *. inversion Hb; subst. cbn [length] in *. cbn in M. lia.
    + cbn [length] in IH. lia.
  - intros tag ts bs Ht Hb IH Hne Hs. cbn [of_tree]. rewrite encode_struct. rewrite !app_length in *. cbn [length] in *. rewrite app_length in *. cbn [length] in *.
    specialize (IH ltac:(lia)). pose proof (tag_len _ _ Ht).
    set (m := length (flat_map encode_obj (map of_tree ts))) in *.
    assert (L : (length (encode_length (Z.of_nat m)) <= 7)%nat).
    { destruct (Z_lt_le_dec (Z.of_nat m) 128) as [Hs0|Hb0].
      - unfold encode_length. destruct (128 <=? Z.of_nat m) eqn:E; [lia|]. cbn. lia.
      - unfold encode_length. destruct (128 <=? Z.of_nat m) eqn:E; [|lia]. cbn [length].
        destruct (length_length_bounds 8 (Z.of_nat m)) as [B1 B2]; [split; [lia|]; change (256 ^ Z.of_nat 9) with (2 ^ 72); lia|].
        destruct (marshal_long_bval (length_length 8 (Z.of_nat m)) (Z.of_nat m) ltac:(lia)) as (-> & _).
        destruct (Nat.le_gt_cases (length_length 8 (Z.of_nat m)) 6) as [|G]; [lia|].
        pose proof (pow256_le 6 (length_length 8 (Z.of_nat m) - 1) ltac:(lia)) as P.
        change (256 ^ Z.of_nat 6) with (2 ^ 48) in P. lia. }
    destruct ts as [|t ts]; [contradiction|]. cbn [length] in IH. lia.
  - intros i Hs. cbn. lia.
  - intros i t ts b bs Hb IHb Hbs IHbs Hi Hs. rewrite app_length in *. cbn [map flat_map]. rewrite app_length. cbn [length].
    specialize (IHb ltac:(lia)). specialize (IHbs ltac:(lia)). lia.
Qed.

Lemma ber_wf : (forall t b, ber t b -> wf_obj (of_tree t)) /\ (forall i ts bs, bers i ts bs -> Forall wf_obj (map of_tree ts)).
Proof.
  apply ber_bers_ind; intros; cbn [of_tree map]; try constructor; auto.
Qed.

Lemma to_of_tree t : to_tree (of_tree t) = t.
Proof.
  induction t as [tag c|tag ts IH] using tree_ind2; [reflexivity|]. cbn [of_tree to_tree]. f_equal.
  rewrite map_map. induction IH as [|t ts H Hs IHs]; [reflexivity|]. cbn [map]. rewrite H, IHs. reflexivity.
Qed.

Lemma ber2der_correct t b post : ber t b -> Z.of_nat (length b) < 2 ^ 47 ->
  exists d, ber2der (b ++ post) = BOk d /\ der t d /\ (length d <= 2 * length b)%nat.
Proof.
  intros H Hs. pose proof (proj1 size_bound t b H Hs) as SB.
  exists (encode_obj (of_tree t)). split; [apply ber2der_ber, H|]. split; [|lia].
  pose proof (encode_obj_der (of_tree t) (proj1 ber_wf t b H) ltac:(lia)) as D. rewrite to_of_tree in D. exact D.
Qed.
