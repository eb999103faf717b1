(** The array of nodes represents a trie: insertion into the array is insertion
    into the trie, and a lookup is a walk along it. *)
From Coq Require Import Lia Permutation.
From Verif.Model Require Import Base NetIP Patricia.
From Verif.Proofs Require Import TrieProofs.

Lemma upd_length : forall {A} (l : list A) i f, length (upd l i f) = length l.
Proof. induction l as [|x l IH]; intros [|i] f; cbn; auto. Qed.
Lemma nth_upd : forall {A} (l : list A) i f j,
  nth_error (upd l i f) j = if Nat.eqb j i then option_map f (nth_error l j) else nth_error l j.
Proof.
  induction l as [|x l IH]; intros i f j.
  - cbn [upd]. destruct j; cbn [nth_error option_map]; destruct (Nat.eqb _ i); reflexivity.
  - destruct i as [|i], j as [|j]; cbn; try reflexivity. apply IH.
Qed.
Lemma upd_last : forall {A} (l : list A) x f, upd (l ++ [x]) (length l) f = l ++ [f x].
Proof. induction l as [|y l IH]; intros x f; cbn; [reflexivity | now rewrite IH]. Qed.
Lemma nth_snoc : forall {A} (l : list A) x j,
  nth_error (l ++ [x]) j = if Nat.eqb j (length l) then Some x else nth_error l j.
Proof.
  intros A l x j. destruct (Nat.eqb j (length l)) eqn:E.
  - apply Nat.eqb_eq in E. subst. rewrite nth_error_app2 by lia. now rewrite Nat.sub_diag.
  - apply Nat.eqb_neq in E. destruct (Nat.lt_ge_cases j (length l)) as [L|L].
    + now apply nth_error_app1.
    + rewrite (proj2 (nth_error_None l j)) by lia. apply nth_error_None. rewrite app_length. cbn. lia.
Qed.

Lemma tag_key_inj : forall i j k m,
  Z.of_nat i < 2 ^ 32 -> Z.of_nat j < 2 ^ 32 -> Z.of_nat k < 2 ^ 32 -> Z.of_nat m < 2 ^ 32 ->
  tag_key i k = tag_key j m -> i = j /\ k = m.
Proof.
  intros i j k m Hi Hj Hk Hm E. unfold tag_key in E.
  rewrite !Z.mod_small in E by (split; nia).
  assert (Z.of_nat i = Z.of_nat j) by nia. split; [apply Nat2Z.inj; assumption|]. apply Nat2Z.inj. nia.
Qed.

Fixpoint ids (T : trie) : list nat :=
  match T with TLeaf => [] | TNode i _ _ l r => i :: ids l ++ ids r end.

Lemma ins_ids : forall T N a x, exists new, Permutation (ids (ins N T a x)) (new ++ ids T) /\
  (new = [] \/ new = [N] \/ new = [N; S N]).
Proof.
  induction T as [|i b ts l IHl r IHr]; intros N a x; cbn [ins].
  { exists [N]. split; [reflexivity | auto]. }
  destruct (Nat.eqb (lcp b a) (length a)); [destruct (Nat.eqb (lcp b a) (length b))|destruct (Nat.eqb (lcp b a) (length b))].
  - exists []. split; [reflexivity | auto].
  - exists [N]. split; [|auto]. destruct (head_set _); cbn; [reflexivity|]. now rewrite app_nil_r.
  - destruct (head_set _).
    + destruct (IHr N (skipn (lcp b a) a) x) as (new & P & C). exists new. split; [|exact C].
      cbn [ids]. rewrite P. rewrite (app_assoc (ids l)), (Permutation_app_comm (ids l) new), <- app_assoc.
      apply Permutation_middle.
    + destruct (IHl N (skipn (lcp b a) a) x) as (new & P & C). exists new. split; [|exact C].
      cbn [ids]. rewrite P. rewrite <- app_assoc. apply Permutation_middle.
  - exists [N; S N]. split; [|auto]. destruct (head_set _); cbn; [reflexivity|]. apply perm_skip.
    rewrite (app_comm_cons _ _ i). rewrite (Permutation_app_comm _ [S N]). reflexivity.
Qed.

Lemma ins_nodup : forall T N a x, NoDup (ids T) -> (forall j, In j (ids T) -> (j < N)%nat) ->
  NoDup (ids (ins N T a x)) /\ (forall j, In j (ids (ins N T a x)) -> In j (ids T) \/ j = N \/ j = S N).
Proof.
  intros T N a x D B. destruct (ins_ids T N a x) as (new & P & C). split.
  - eapply Permutation_NoDup; [symmetry; exact P|].
    destruct C as [->|[->| ->]]; cbn [app]; auto.
    + constructor; auto. intros I. specialize (B _ I). lia.
    + constructor; [|constructor; auto]; intros I.
      * destruct I as [I|I]; [lia | specialize (B _ I); lia].
      * specialize (B _ I). lia.
  - intros j I. apply (Permutation_in _ P) in I. apply in_app_iff in I. destruct I as [I|I]; [|now left].
    destruct C as [->|[->| ->]]; cbn in I; intuition.
Qed.

Lemma nodup_app : forall {A} (l1 l2 : list A), NoDup (l1 ++ l2) ->
  NoDup l1 /\ NoDup l2 /\ (forall x, In x l1 -> ~ In x l2).
Proof.
  induction l1 as [|y l1 IH]; intros l2 D; cbn in *.
  - repeat split; [constructor | exact D | tauto].
  - inversion D as [|? ? N D']; subst. destruct (IH l2 D') as (D1 & D2 & S). repeat split; auto.
    + constructor; auto. intros I. apply N. apply in_app_iff. now left.
    + intros x [->|I]; [|now apply S]. intros I. apply N. apply in_app_iff. now right.
Qed.

Lemma lcp_trunc : forall b a k, lcp (firstn k b) (firstn k a) = Nat.min k (lcp b a).
Proof.
  induction b as [|x b IH]; intros a k.
  - rewrite firstn_nil. cbn. now rewrite Nat.min_0_r.
  - destruct k as [|k]; [reflexivity|]. destruct a as [|y a]; [reflexivity|].
    cbn. destruct (Bool.eqb x y); [now rewrite IH | reflexivity].
Qed.

Section Refine.
  Variable W : Type.
  Variable w_zero : W.
  Variable w_match : W -> W -> Z -> Z.
  Variable w_shl : W -> Z -> W.
  Variable w_left : W -> bool.
  Variable width : Z.
  Variable ok : W -> Prop.
  Variable bit : W -> nat -> bool.
  Definition wbits (w : W) (len : Z) : list bool := map (bit w) (seq 0 (Z.to_nat len)).

  Hypothesis width_pos : 0 < width.
  Hypothesis zero_ok : ok w_zero.
  Hypothesis match_lcp : forall p a len, ok p -> ok a -> 0 <= len <= width ->
    w_match p a len = Z.of_nat (lcp (wbits p len) (wbits a len)).
  Hypothesis shl_ok : forall x n, ok x -> 0 <= n -> ok (w_shl x n).
  Hypothesis shl_bits : forall x n len, ok x -> 0 <= n <= len -> len <= width ->
    wbits (w_shl x n) (len - n) = skipn (Z.to_nat n) (wbits x len).
  Hypothesis left_bit : forall x, ok x -> w_left x = bit x 0%nat.

  Local Notation ptree := (ptree W).
  Local Notation tnode := (tnode W).
  Local Notation paddr := (paddr W).
  Local Notation add_leaf := (add_leaf W).
  Local Notation add_tag := (add_tag W).
  Local Notation new_node := (new_node W).
  Local Notation upd_node := (upd_node W).
  Local Notation replace_child := (replace_child W).
  Local Notation set_left := (set_left W).
  Local Notation set_right := (set_right W).
  Local Notation inc_tags := (inc_tags W).
  Local Notation shift_prefix := (shift_prefix W w_shl).
  Local Notation match_count := (match_count W w_match).
  Local Notation add_loop := (add_loop W w_match w_shl w_left).
  Local Notation find_loop := (find_loop W w_match w_shl w_left).
  Local Notation a_shift := (a_shift W w_shl).

  Definition abits (a : paddr) : list bool := wbits (a_word a) (a_len a).
  Definition nbits (n : tnode) : list bool := wbits (n_prefix n) (n_len n).
  Definition a_ok (a : paddr) : Prop := ok (a_word a) /\ 0 <= a_len a <= width.
  Definition n_ok (n : tnode) : Prop := ok (n_prefix n) /\ 0 <= n_len n <= width.

  Lemma wbits_length : forall w len, length (wbits w len) = Z.to_nat len.
  Proof. intros. unfold wbits. now rewrite map_length, seq_length. Qed.
  Lemma wbits_head : forall w len, ok w -> 0 < len -> head_set (wbits w len) = w_left w.
  Proof.
    intros w len K H. rewrite left_bit by exact K. unfold wbits.
    destruct (Z.to_nat len) as [|k] eqn:E; [lia|]. reflexivity.
  Qed.
  Lemma wbits_firstn : forall w len k, 0 <= k <= len -> firstn (Z.to_nat k) (wbits w len) = wbits w k.
  Proof.
    intros w len k H. unfold wbits. rewrite firstn_map. f_equal.
    replace (Z.to_nat len) with (Z.to_nat k + Z.to_nat (len - k))%nat by lia.
    rewrite seq_app. rewrite firstn_app, seq_length, Nat.sub_diag. cbn [firstn]. rewrite app_nil_r.
    apply firstn_all2. rewrite seq_length. lia.
  Qed.
  Lemma wbits_nil : forall w len, 0 <= len -> (wbits w len = [] <-> len = 0).
  Proof.
    intros w len H. split; intros E.
    - apply (f_equal (@length bool)) in E. rewrite wbits_length in E. cbn in E. lia.
    - subst. reflexivity.
  Qed.

  Lemma match_count_lcp : forall n a, n_ok n -> a_ok a -> match_count n a = Z.of_nat (lcp (nbits n) (abits a)).
  Proof.
    intros n a [Kn Ln] [Ka La]. unfold Patricia.match_count.
    set (m := if n_len n <? a_len a then n_len n else a_len a).
    assert (M : 0 <= m <= n_len n /\ m <= a_len a /\ (m = n_len n \/ m = a_len a)).
    { unfold m. destruct (Z.ltb_spec (n_len n) (a_len a)); lia. }
    rewrite match_lcp by (auto; lia). f_equal. unfold nbits, abits.
    rewrite <- (wbits_firstn (n_prefix n) (n_len n) m) by lia.
    rewrite <- (wbits_firstn (a_word a) (a_len a) m) by lia.
    rewrite lcp_trunc. pose proof (lcp_le (wbits (n_prefix n) (n_len n)) (wbits (a_word a) (a_len a))) as L.
    rewrite !wbits_length in L. lia.
  Qed.

  Lemma a_shift_ok : forall a m, a_ok a -> 0 <= m <= a_len a -> a_ok (a_shift a m).
  Proof. intros a m [K L] M. split; cbn; [now apply shl_ok | lia]. Qed.
  Lemma a_shift_bits : forall a m, a_ok a -> 0 <= m <= a_len a -> abits (a_shift a m) = skipn (Z.to_nat m) (abits a).
  Proof. intros a m [K L] M. unfold abits. cbn. apply shl_bits; auto. lia. Qed.
  Lemma shift_prefix_ok : forall n m, n_ok n -> 0 <= m <= n_len n -> n_ok (shift_prefix m n).
  Proof. intros n m [K L] M. split; cbn; [now apply shl_ok | lia]. Qed.
  Lemma shift_prefix_bits : forall n m, n_ok n -> 0 <= m <= n_len n -> nbits (shift_prefix m n) = skipn (Z.to_nat m) (nbits n).
  Proof. intros n m [K L] M. unfold nbits. cbn. apply shl_bits; auto. lia. Qed.

  (** ** Representation *)

  Definition tag_list (t : ptree) (i : nat) (n : tnode) : list Z :=
    map (fun k => t_tags t (tag_key i k)) (seq 0 (n_tags n)).

  Fixpoint repr (t : ptree) (i : nat) (T : trie) : Prop :=
    match T with
    | TLeaf => i = 0%nat
    | TNode j b ts l r =>
        j = i /\ i <> 0%nat /\ exists n, nth_error (t_nodes t) i = Some n /\ n_ok n /\
        b = nbits n /\ ts = tag_list t i n /\ repr t (n_left n) l /\ repr t (n_right n) r
    end.

  Definition same_at (t t' : ptree) (j : nat) : Prop :=
    nth_error (t_nodes t') j = nth_error (t_nodes t) j /\
    forall n, nth_error (t_nodes t) j = Some n -> tag_list t' j n = tag_list t j n.

  Lemma repr_frame : forall T t t' i, repr t i T -> (forall j, In j (ids T) -> same_at t t' j) -> repr t' i T.
  Proof.
    induction T as [|j b ts l IHl r IHr]; intros t t' i R S; [exact R|].
    destruct R as (-> & I0 & n & E & K & B & TS & Rl & Rr).
    destruct (S i (or_introl eq_refl)) as [E' T'].
    split; [reflexivity|]. split; [exact I0|]. exists n. rewrite E'. repeat split; auto.
    - apply K.
    - apply K.
    - apply K.
    - rewrite TS. symmetry. now apply T'.
    - apply (IHl t); auto. intros j I. apply S. right. apply in_app_iff. now left.
    - apply (IHr t); auto. intros j I. apply S. right. apply in_app_iff. now right.
  Qed.

  Lemma repr_ids : forall T t i j, repr t i T -> In j (ids T) -> (j < length (t_nodes t))%nat /\ j <> 0%nat.
  Proof.
    induction T as [|k b ts l IHl r IHr]; intros t i j R I; [destruct I|].
    destruct R as (-> & I0 & n & E & _ & _ & _ & Rl & Rr). destruct I as [<-|I].
    - split; [apply nth_error_Some; congruence | exact I0].
    - apply in_app_iff in I. destruct I as [I|I]; eauto.
  Qed.

  Lemma repr_root_in : forall T t i, repr t i T -> i <> 0%nat -> In i (ids T).
  Proof. intros [|j b ts l r] t i R I; cbn in R; [congruence|]. destruct R as [-> _]. now left. Qed.

  Definition inv (t : ptree) (c : Z) : Prop :=
    t_avail t = [] /\ (length (t_nodes t) <= t_cap t)%nat /\ Z.of_nat (length (t_nodes t)) <= 2 + 2 * c /\
    (forall j n, nth_error (t_nodes t) j = Some n -> Z.of_nat (n_tags n) <= c).

  (** ** Primitive steps *)

  Definition leaf_of (a : paddr) (k : nat) : tnode := mkNode 0 0 (a_word a) (a_len a) k.
  Definition set_tag (f : Z -> Z) (key v : Z) : Z -> Z := fun k => if k =? key then v else f k.

  Lemma new_node_eq : forall t w len, t_avail t = [] -> (length (t_nodes t) < t_cap t)%nat ->
    new_node t w len = TOk (mkTree (t_nodes t ++ [mkNode 0 0 w len 0]) (t_cap t) [] (t_tags t), length (t_nodes t)).
  Proof.
    intros t w len A C. unfold Patricia.new_node. rewrite A.
    apply Nat.ltb_lt in C. now rewrite C.
  Qed.
  Lemma add_leaf_eq : forall t a tag, t_avail t = [] -> (length (t_nodes t) < t_cap t)%nat ->
    add_leaf t a tag = TOk (mkTree (t_nodes t ++ [leaf_of a 1]) (t_cap t) []
      (set_tag (t_tags t) (tag_key (length (t_nodes t)) 0) tag), length (t_nodes t)).
  Proof.
    intros t a tag A C. unfold Patricia.add_leaf. rewrite new_node_eq by assumption. cbn [tbind].
    unfold Patricia.add_tag. cbn [t_nodes t_cap t_avail t_tags]. rewrite nth_snoc, Nat.eqb_refl.
    cbn [n_tags tbind]. rewrite upd_last. reflexivity.
  Qed.

  (** The node [N] is new: no other key is touched. *)
  Lemma tag_list_other : forall t N k v j n nodes cap av c,
    inv t c -> 2 + 2 * (c + 1) < 2 ^ 32 -> j <> N -> Z.of_nat N < 2 ^ 32 -> Z.of_nat k < 2 ^ 32 ->
    nth_error (t_nodes t) j = Some n ->
    tag_list (mkTree nodes cap av (set_tag (t_tags t) (tag_key N k) v)) j n = tag_list t j n.
  Proof.
    intros t N k v j n nodes cap av c (_ & _ & L & B) C J HN Hk E. unfold tag_list. cbn [t_tags].
    apply map_ext_in. intros m I. apply in_seq in I. unfold set_tag.
    destruct (tag_key j m =? tag_key N k) eqn:F; [|reflexivity].
    apply Z.eqb_eq in F. specialize (B j n E).
    assert (j < length (t_nodes t))%nat by (apply nth_error_Some; congruence).
    apply tag_key_inj in F; try lia.
  Qed.
  Lemma tag_list_snoc : forall t i n v nodes cap av c,
    inv t c -> 2 + 2 * (c + 1) < 2 ^ 32 -> nth_error (t_nodes t) i = Some n ->
    tag_list (mkTree nodes cap av (set_tag (t_tags t) (tag_key i (n_tags n)) v)) i (inc_tags n) = tag_list t i n ++ [v].
  Proof.
    intros t i n v nodes cap av c (_ & _ & L & B) C E. unfold tag_list. cbn [t_tags n_tags Patricia.inc_tags].
    rewrite seq_S, map_app. cbn [map plus]. f_equal.
    - apply map_ext_in. intros m I. apply in_seq in I. unfold set_tag.
      destruct (tag_key i m =? tag_key i (n_tags n)) eqn:F; [|reflexivity].
      apply Z.eqb_eq in F. specialize (B i n E).
      assert (i < length (t_nodes t))%nat by (apply nth_error_Some; congruence).
      apply tag_key_inj in F; lia.
    - unfold set_tag. now rewrite Z.eqb_refl.
  Qed.

  (** ** The result of an insertion below [p] on side [s] *)

  Definition child (s : bool) (n : tnode) : nat := if s then n_right n else n_left n.
  Definition set_child (s : bool) (j : nat) (n : tnode) : tnode := if s then set_right j n else set_left j n.

  Definition added (t t' : ptree) (T : trie) (p : nat) (pn : tnode) (s : bool) (a : list bool) (tag : Z) (c : Z) : Prop :=
    exists root,
      repr t' root (ins (length (t_nodes t)) T a tag) /\
      nth_error (t_nodes t') p = Some (set_child s root pn) /\
      tag_list t' p pn = tag_list t p pn /\
      (forall j, ~ In j (ids T) -> j <> p -> (j < length (t_nodes t))%nat -> same_at t t' j) /\
      inv t' (c + 1) /\
      (length (t_nodes t) <= length (t_nodes t'))%nat.

  Lemma same_at_set : forall t t' N k v j c,
    inv t c -> 2 + 2 * (c + 1) < 2 ^ 32 -> j <> N -> Z.of_nat N < 2 ^ 32 -> Z.of_nat k < 2 ^ 32 ->
    t_tags t' = set_tag (t_tags t) (tag_key N k) v ->
    nth_error (t_nodes t') j = nth_error (t_nodes t) j -> same_at t t' j.
  Proof.
    intros t t' N k v j c I C J HN Hk Tg E. split; [exact E|]. intros n En.
    destruct t' as [nodes cap av tags]. cbn in Tg. subst tags. now apply (tag_list_other t N k v j n nodes cap av c).
  Qed.

  Lemma child_set : forall s n, set_child s (child s n) n = n.
  Proof. intros [|] [l r w k g]; reflexivity. Qed.

  Lemma replace_child_eq : forall t p pn s i j, nth_error (t_nodes t) p = Some pn ->
    child s pn = i -> (s = true -> n_left pn <> i) ->
    replace_child t p i j = TOk (upd_node t p (set_child s j)).
  Proof.
    intros t p pn s i j E C S. unfold Patricia.replace_child. rewrite E. destruct s; cbn [child] in C.
    - destruct (Nat.eqb (n_left pn) i) eqn:F; [apply Nat.eqb_eq in F; exfalso; now apply S|].
      apply Nat.eqb_eq in C. now rewrite C.
    - apply Nat.eqb_eq in C. now rewrite C.
  Qed.

  Ltac eqbs := repeat match goal with
    | |- context [Nat.eqb ?x ?x] => rewrite (Nat.eqb_refl x)
    | |- context [Nat.eqb ?x ?y] =>
        first [rewrite (proj2 (Nat.eqb_eq x y)) by lia | rewrite (proj2 (Nat.eqb_neq x y)) by lia]
    end.
  Ltac look := cbn [t_nodes Patricia.upd_node Patricia.with_nodes]; repeat rewrite nth_upd; rewrite ?nth_snoc; eqbs.

  Lemma add_loop_ok : forall T fuel t i p pn s a tag c,
    inv t c -> 2 + 2 * (c + 1) < 2 ^ 32 -> (length (t_nodes t) + 2 <= t_cap t)%nat ->
    repr t i T -> T <> TLeaf -> tgood T -> NoDup (ids T) ->
    a_ok a -> 0 < a_len a -> starts (head_set (abits a)) T -> (Z.to_nat (a_len a) < fuel)%nat ->
    ~ In p (ids T) -> nth_error (t_nodes t) p = Some pn -> child s pn = i -> (s = true -> n_left pn <> i) ->
    exists t', add_loop fuel t i p a tag = TOk t' /\ added t t' T p pn s (abits a) tag c.
  Proof.
    induction T as [|i' b ts l IHl r IHr]; intros fuel t i p pn s a tag c I C Cap R NL G D A La S F P Ep Ec Es;
      [congruence|].
    destruct R as (-> & I0 & n & E & K & B & TS & Rl & Rr).
    destruct G as (Sl & Sr & Gl & Gr). destruct S as [Bne Hb].
    cbn [ids] in D, P. inversion D as [|? ? Di D']; subst x l0. apply nodup_app in D' as (Dl & Dr & Dlr).
    destruct fuel as [|fuel]; [lia|].
    pose proof (match_count_lcp n a K A) as MC. rewrite <- B in MC.
    set (m := lcp b (abits a)) in *.
    assert (Lb : length b = Z.to_nat (n_len n)) by (rewrite B; apply wbits_length).
    assert (Lab : length (abits a) = Z.to_nat (a_len a)) by apply wbits_length.
    pose proof (lcp_le b (abits a)) as [L1 L2]. fold m in L1, L2.
    assert (M0 : (0 < m)%nat).
    { unfold m. destruct b as [|y b']; [congruence|].
      destruct (abits a) as [|z a'] eqn:Ea; [cbn in Lab; lia|]. cbn in Hb. subst.
      cbn. rewrite Bool.eqb_reflx. lia. }
    destruct K as [Kw Kl]. pose proof A as [Aw Al].
    assert (iN : (i < length (t_nodes t))%nat) by (apply nth_error_Some; congruence).
    assert (pN : (p < length (t_nodes t))%nat) by (apply nth_error_Some; congruence).
    assert (pi : p <> i) by (intros ->; apply P; now left).
    assert (IDl : forall j, In j (ids l) -> (j < length (t_nodes t))%nat /\ j <> i /\ j <> p).
    { intros j J. pose proof (repr_ids _ _ _ _ Rl J). repeat split; [tauto| |].
      - intros ->. apply Di. apply in_app_iff. now left.
      - intros ->. apply P. right. apply in_app_iff. now left. }
    assert (IDr : forall j, In j (ids r) -> (j < length (t_nodes t))%nat /\ j <> i /\ j <> p).
    { intros j J. pose proof (repr_ids _ _ _ _ Rr J). repeat split; [tauto| |].
      - intros ->. apply Di. apply in_app_iff. now right.
      - intros ->. apply P. right. apply in_app_iff. now right. }
    pose proof I as (Iav & Icap & Ilen & Itags).
    assert (I32 : Z.of_nat (length (t_nodes t)) < 2 ^ 32) by lia.
    set (N := length (t_nodes t)) in *.
    cbn [Patricia.add_loop].
    rewrite (proj2 (Nat.eqb_neq i 0)) by exact I0. rewrite E.
    rewrite (proj2 (Z.eqb_neq (n_len n) 0)) by lia. rewrite MC.
    rewrite (proj2 (Z.eqb_neq (Z.of_nat m) 0)) by lia.
    unfold added. fold N. cbn [ins]. fold m. rewrite Lb, Lab.
    destruct (Z.eqb_spec (Z.of_nat m) (a_len a)) as [Ma|Ma].
    - rewrite (proj2 (Nat.eqb_eq m (Z.to_nat (a_len a)))) by lia.
      destruct (Z.eqb_spec (Z.of_nat m) (n_len n)) as [Mn|Mn].
      + (* the node itself *)
        rewrite (proj2 (Nat.eqb_eq m (Z.to_nat (n_len n)))) by lia.
        unfold Patricia.add_tag. rewrite E. eexists. split; [reflexivity|]. exists i.
        specialize (Itags i n E) as Hi.
        assert (Sm : forall j, j <> i -> same_at t
          (mkTree (upd (t_nodes t) i inc_tags) (t_cap t) (t_avail t)
             (fun k => if k =? tag_key i (n_tags n) then tag else t_tags t k)) j).
        { intros j J. apply (same_at_set t _ i (n_tags n) tag j c); auto; try lia.
          look. reflexivity. }
        repeat split.
        * exact I0.
        * exists (inc_tags n). split; [look; now rewrite E|]. split; [split; assumption|].
          split; [exact B|]. split.
          { rewrite TS. symmetry. apply (tag_list_snoc t i n tag _ _ _ c); auto. }
          split; (eapply repr_frame; [eassumption|]); intros j J; apply Sm; [apply IDl | apply IDr]; exact J.
        * look. rewrite Ep. f_equal. rewrite <- Ec. symmetry. apply child_set.
        * now apply Sm.
        * apply Sm. intros ->. apply H. now left.
        * apply Sm. intros ->. apply H. now left.
        * exact Iav.
        * cbn [t_nodes t_cap]. rewrite upd_length. fold N. lia.
        * cbn [t_nodes t_cap]. rewrite upd_length. fold N. lia.
        * intros j nj. look. destruct (Nat.eqb_spec j i) as [->|J].
          -- rewrite E. cbn. intros H. injection H as <-. cbn. lia.
          -- intros H. specialize (Itags _ _ H). lia.
        * cbn [t_nodes]. rewrite upd_length. fold N. lia.
      + (* a new node above it *)
        rewrite (proj2 (Nat.eqb_neq m (Z.to_nat (n_len n)))) by lia.
        rewrite add_leaf_eq by (auto; lia). cbn [tbind]. fold N.
        assert (Hs : w_left (w_shl (n_prefix n) (Z.of_nat m)) = head_set (skipn m b)).
        { rewrite B. unfold nbits. rewrite <- (Nat2Z.id m) at 2. rewrite <- shl_bits by (auto; lia).
          symmetry. apply wbits_head; [apply shl_ok; auto; lia | lia]. }
        rewrite Hs.
        set (f := if negb (head_set (skipn m b)) then set_left i else set_right i).
        rewrite (replace_child_eq _ p pn s i N); [| look; exact Ep | exact Ec | exact Es].
        eexists. split; [reflexivity|]. exists N.
        match goal with |- repr ?u _ _ /\ _ => set (t' := u) end.
        assert (Sm : forall j, j <> i -> j <> p -> j <> N -> same_at t t' j).
        { intros j J1 J2 J3. apply (same_at_set t t' N 0 tag j c); auto; try lia.
          unfold t'. look. reflexivity. }
        assert (At_i : nth_error (t_nodes t') i = Some (shift_prefix (Z.of_nat m) n)).
        { unfold t'. look. now rewrite E. }
        assert (At_N : nth_error (t_nodes t') N = Some (f (leaf_of a 1))).
        { unfold t'. look. reflexivity. }
        assert (At_p : nth_error (t_nodes t') p = Some (set_child s N pn)).
        { unfold t'. look. now rewrite Ep. }
        assert (Ti : forall x, tag_list t' i x = tag_list t i n \/ n_tags x <> n_tags n).
        { intros x. destruct (Nat.eq_dec (n_tags x) (n_tags n)) as [Q|Q]; [left|now right].
          unfold tag_list at 1. rewrite Q. apply (tag_list_other t N 0 tag i n [] 0%nat [] c); auto; lia. }
        assert (Old : repr t' i (TNode i (skipn m b) ts l r)).
        { split; [reflexivity|]. split; [exact I0|]. eexists. split; [exact At_i|].
          split; [apply shift_prefix_ok; [split; assumption | lia]|].
          split; [rewrite shift_prefix_bits by (try split; auto; lia); now rewrite Nat2Z.id, B|].
          split; [destruct (Ti (shift_prefix (Z.of_nat m) n)) as [Q|Q]; [now rewrite Q | now destruct Q]|].
          split; (eapply repr_frame; [eassumption|]); intros j J; [apply IDl in J | apply IDr in J];
            apply Sm; try tauto; fold N in J; lia. }
        assert (TN : tag_list t' N (f (leaf_of a 1)) = [tag]).
        { unfold f, tag_list. destruct (negb _); cbn; unfold set_tag; now rewrite Z.eqb_refl. }
        split.
        { destruct (head_set (skipn m b)); (split; [reflexivity|]; split; [lia|]; eexists;
            split; [exact At_N|]; split; [split; assumption|]; split; [reflexivity|];
            split; [now rewrite TN|]; cbn [f negb n_left n_right Patricia.set_left Patricia.set_right leaf_of];
            split; try exact Old; reflexivity). }
        split; [exact At_p|].
        split; [apply (tag_list_other t N 0 tag p pn [] 0%nat [] c); auto; lia|].
        split.
        { intros j J1 J2 J3. apply Sm; auto; [|lia]. intros ->. apply J1. now left. }
        split.
        { split; [reflexivity|]. unfold t'. cbn [t_nodes Patricia.upd_node Patricia.with_nodes t_cap].
          rewrite !upd_length, app_length. fold N. cbn [length]. split; [lia|]. split; [lia|].
          intros j nj. look. destruct (Nat.eqb_spec j p) as [->|J1]; [eqbs; rewrite Ep; intros H; injection H as <-; specialize (Itags _ _ Ep); destruct s; cbn; lia|].
          destruct (Nat.eqb_spec j N) as [->|J2]; [eqbs; cbn [option_map]; intros H; injection H as <-; unfold f; destruct (negb _); cbn; specialize (Itags _ _ Ep); lia|].
          destruct (Nat.eqb_spec j i) as [->|J3]; [fold N; eqbs; rewrite E; intros H; injection H as <-; specialize (Itags _ _ E); cbn; lia|].
          fold N; eqbs; intros H. specialize (Itags _ _ H). lia. }
        unfold t'. cbn [t_nodes Patricia.upd_node Patricia.with_nodes]. rewrite !upd_length, app_length. fold N. lia.
    - rewrite (proj2 (Nat.eqb_neq m (Z.to_nat (a_len a)))) by lia.
      destruct (Z.eqb_spec (Z.of_nat m) (n_len n)) as [Mn|Mn].
      + (* further down *)
        rewrite (proj2 (Nat.eqb_eq m (Z.to_nat (n_len n)))) by lia.
        set (a' := a_shift a (Z.of_nat m)).
        assert (A' : a_ok a') by (apply a_shift_ok; auto; lia).
        assert (Ea' : abits a' = skipn m (abits a)).
        { unfold a'. rewrite a_shift_bits by (auto; lia). now rewrite Nat2Z.id. }
        assert (La' : 0 < a_len a') by (unfold a'; cbn; lia).
        assert (Hs : w_left (a_word a') = head_set (skipn m (abits a))).
        { rewrite <- Ea'. symmetry. apply wbits_head; [apply A' | exact La']. }
        rewrite Hs, <- Ea'. set (v := head_set (abits a')) in *.
        assert (Down : forall T' side, (side = v) ->
          (if side then r else l) = T' ->
          repr t (child side n) T' -> 
          (T' <> TLeaf -> exists t', add_loop fuel t (child side n) i a' tag = TOk t' /\ added t t' T' i n side (abits a') tag c) ->
          exists t', (if Nat.eqb (child side n) 0
                      then do (t1, j) <- add_leaf t a' tag; TOk (upd_node t1 i (set_child side j))
                      else add_loop fuel t (child side n) i a' tag) = TOk t' /\ added t t' T' i n side (abits a') tag c).
        { intros T' side Sv ET RT IH. destruct (Nat.eqb_spec (child side n) 0) as [Z0|Z0].
          - assert (T' = TLeaf).
            { destruct T' as [|k b1 ts1 l1 r1]; [reflexivity|]. destruct RT as (-> & K0 & _). congruence. }
            rewrite add_leaf_eq by (auto; lia). cbn [tbind]. fold N.
            eexists. split; [reflexivity|]. exists N. rewrite H. cbn [ins].
            match goal with |- repr ?u _ _ /\ _ => set (t' := u) end.
            assert (Sm : forall j, j <> i -> j <> N -> same_at t t' j).
            { intros j J1 J2. apply (same_at_set t t' N 0 tag j c); auto; try lia.
              unfold t'. look. reflexivity. }
            split.
            { split; [reflexivity|]. split; [lia|]. exists (leaf_of a' 1).
              split; [unfold t'; look; reflexivity|]. split; [exact A'|]. split; [reflexivity|].
              split; [unfold tag_list; cbn; unfold set_tag; now rewrite Z.eqb_refl|]. split; reflexivity. }
            split; [unfold t'; look; now rewrite E|].
            split; [apply (tag_list_other t N 0 tag i n [] 0%nat [] c); auto; lia|].
            split; [intros j J1 J2 J3; apply Sm; auto; fold N in J3; lia|].
            split.
            { split; [reflexivity|]. unfold t'. cbn [t_nodes Patricia.upd_node Patricia.with_nodes t_cap].
              rewrite !upd_length, app_length. fold N. cbn [length]. split; [lia|]. split; [lia|].
              intros j nj. look. destruct (Nat.eqb_spec j i) as [->|J1]; [eqbs; rewrite E; intros Q; injection Q as <-; specialize (Itags _ _ E); destruct side; cbn; lia|].
              fold N. destruct (Nat.eqb_spec j N) as [->|J2]; [intros Q; injection Q as <-; cbn; specialize (Itags _ _ Ep); lia|].
              intros Q. specialize (Itags _ _ Q). lia. }
            unfold t'. cbn [t_nodes Patricia.upd_node Patricia.with_nodes]. rewrite !upd_length, app_length. fold N. lia.
          - apply IH. intros ->. apply Z0. exact RT. }
        assert (Fin : forall side t', side = v ->
          added t t' (if side then r else l) i n side (abits a') tag c ->
          exists root, repr t' root (if side then TNode i b ts l (ins N r (abits a') tag) else TNode i b ts (ins N l (abits a') tag) r) /\
            nth_error (t_nodes t') p = Some (set_child s root pn) /\ tag_list t' p pn = tag_list t p pn /\
            (forall j, ~ In j (i :: ids l ++ ids r) -> j <> p -> (j < N)%nat -> same_at t t' j) /\
            inv t' (c + 1) /\ (N <= length (t_nodes t'))%nat).
        { intros side t' Sv (root & Ra & Pa & Ta & Sa & Va & Ga). fold N in Ra, Sa, Ga. exists i.
          assert (Pside : same_at t t' p).
          { apply Sa; auto. intros J. apply P. right. apply in_app_iff. destruct side; auto. }
          assert (Sib : repr t' (child (negb side) n) (if side then l else r)).
          { destruct side; (eapply repr_frame; [eassumption|]); intros j J; apply Sa.
            - now apply Dlr.
            - now apply IDl.
            - now apply IDl.
            - intros Q. now apply (Dlr j).
            - now apply IDr.
            - now apply IDr. }
          split.
          { destruct side; cbn [negb child] in Sib; (split; [reflexivity|]; split; [exact I0|]; eexists;
              split; [exact Pa|]; split; [split; assumption|]; split; [exact B|];
              split; [rewrite TS; symmetry; exact Ta|]; split; assumption). }
          split; [rewrite (proj1 Pside), Ep; f_equal; rewrite <- Ec; symmetry; apply child_set|].
          split; [now apply (proj2 Pside)|].
          split; [|split; assumption]. intros j J1 J2 J3. apply Sa; auto.
          - intros J. apply J1. right. apply in_app_iff. destruct side; auto.
          - intros ->. apply J1. now left. }
        destruct v eqn:Ev; cbn [negb].
        * destruct (Down r true eq_refl eq_refl Rr) as (t' & Et & At).
          { intros NLr. apply IHr; auto.
            - fold v. now rewrite Ev.
            - unfold a'. cbn. lia.
            - intros J. apply IDr in J. tauto.
            - intros _ Q. pose proof (repr_root_in _ _ _ Rr) as X. cbn in Q.
              assert (n_right n <> 0%nat) by (destruct r; [congruence|]; destruct Rr as (-> & Q0 & _); exact Q0).
              specialize (X H). apply (Dlr (n_right n)); [|exact X]. rewrite <- Q. apply (repr_root_in _ _ _ Rl). congruence. }
          exists t'. split; [exact Et|]. exact (Fin true t' eq_refl At).
        * destruct (Down l false eq_refl eq_refl Rl) as (t' & Et & At).
          { intros NLl. apply IHl; auto.
            - fold v. now rewrite Ev.
            - unfold a'. cbn. lia.
            - intros J. apply IDl in J. tauto.
            - discriminate. }
          exists t'. split; [exact Et|]. exact (Fin false t' eq_refl At).
      + (* split *)
        rewrite (proj2 (Nat.eqb_neq m (Z.to_nat (n_len n)))) by lia.
        rewrite new_node_eq by (auto; lia). cbn [tbind]. fold N.
        set (a' := a_shift a (Z.of_nat m)).
        assert (A' : a_ok a') by (apply a_shift_ok; auto; lia).
        assert (Ea' : abits a' = skipn m (abits a)).
        { unfold a'. rewrite a_shift_bits by (auto; lia). now rewrite Nat2Z.id. }
        rewrite add_leaf_eq.
        2:{ reflexivity. }
        2:{ cbn [t_nodes t_cap]. rewrite app_length. fold N. cbn. lia. }
        cbn [tbind t_nodes t_cap t_tags]. rewrite app_length. cbn [length]. fold N. rewrite (Nat.add_1_r N).
        assert (Hs : w_left (w_shl (n_prefix n) (Z.of_nat m)) = head_set (skipn m b)).
        { rewrite B. unfold nbits. rewrite <- (Nat2Z.id m) at 2. rewrite <- shl_bits by (auto; lia).
          symmetry. apply wbits_head; [apply shl_ok; auto; lia | lia]. }
        rewrite Hs.
        set (cm := mkNode 0 0 (a_word a) (Z.of_nat m) 0).
        set (base := (t_nodes t ++ [cm]) ++ [leaf_of a' 1]).
        assert (Lbase : length (t_nodes t ++ [cm]) = S N) by (rewrite app_length; cbn; fold N; lia).
        assert (Base : forall j, nth_error base j = if Nat.eqb j (S N) then Some (leaf_of a' 1)
          else if Nat.eqb j N then Some cm else nth_error (t_nodes t) j).
        { intros j. unfold base. rewrite nth_snoc, Lbase, nth_snoc. reflexivity. }
        assert (LB : length base = (N + 2)%nat) by (unfold base; rewrite app_length, Lbase; cbn; lia).
        clearbody base.
        set (hs := head_set (skipn m b)) in *.
        rewrite (replace_child_eq _ p pn s i N); [| destruct hs; cbn [negb]; look; rewrite Base; eqbs; exact Ep | exact Ec | exact Es].
        eexists. split; [reflexivity|]. exists N.
        match goal with |- repr ?u _ _ /\ _ => set (t' := u) end.
        set (cn := if hs then mkNode (S N) i (a_word a) (Z.of_nat m) 0 else mkNode i (S N) (a_word a) (Z.of_nat m) 0).
        assert (Nodes : forall j, nth_error (t_nodes t') j =
          if Nat.eqb j p then Some (set_child s N pn) else
          if Nat.eqb j N then Some cn else
          if Nat.eqb j i then Some (shift_prefix (Z.of_nat m) n) else
          if Nat.eqb j (S N) then Some (leaf_of a' 1) else nth_error (t_nodes t) j).
        { intros j. unfold t'. destruct hs; cbn [negb]; look; rewrite Base;
          (destruct (Nat.eqb_spec j p) as [->|J1]; [eqbs; now rewrite Ep|]);
          (destruct (Nat.eqb_spec j N) as [->|J2]; [eqbs; reflexivity|]);
          (destruct (Nat.eqb_spec j i) as [->|J3]; [eqbs; now rewrite E|]);
          destruct (Nat.eqb_spec j (S N)); reflexivity. }
        assert (Tags : t_tags t' = set_tag (t_tags t) (tag_key (S N) 0) tag).
        { unfold t'. destruct hs; reflexivity. }
        assert (Len : length (t_nodes t') = (N + 2)%nat).
        { unfold t'. destruct hs; cbn [negb t_nodes Patricia.upd_node Patricia.with_nodes]; rewrite !upd_length; exact LB. }
        assert (Av : t_avail t' = []) by (unfold t'; destruct hs; reflexivity).
        assert (Cp : t_cap t' = t_cap t) by (unfold t'; destruct hs; reflexivity).
        clearbody t'.
        assert (SN32 : Z.of_nat (S N) < 2 ^ 32) by lia.
        assert (Sm : forall j, j <> i -> j <> p -> (j < N)%nat -> same_at t t' j).
        { intros j J1 J2 J3. apply (same_at_set t t' (S N) 0 tag j c); auto; try lia.
          rewrite Nodes. eqbs. reflexivity. }
        assert (Tl : forall j x y, (j < N)%nat -> nth_error (t_nodes t) j = Some x -> n_tags y = n_tags x -> tag_list t' j y = tag_list t j x).
        { intros j x y J Ex Q. unfold tag_list at 1. rewrite Q, Tags.
          apply (tag_list_other t (S N) 0 tag j x [] 0%nat [] c); auto; lia. }
        assert (Old : repr t' i (TNode i (skipn m b) ts l r)).
        { split; [reflexivity|]. split; [exact I0|]. exists (shift_prefix (Z.of_nat m) n). split; [rewrite Nodes; eqbs; reflexivity|].
          split; [apply shift_prefix_ok; [split; assumption | lia]|].
          split; [rewrite shift_prefix_bits by (try split; auto; lia); now rewrite Nat2Z.id, B|].
          split; [rewrite TS; symmetry; now apply Tl|].
          split; (eapply repr_frame; [eassumption|]); intros j J; [apply IDl in J | apply IDr in J];
            apply Sm; try tauto; fold N in J; lia. }
        assert (New : repr t' (S N) (TNode (S N) (skipn m (abits a)) [tag] TLeaf TLeaf)).
        { split; [reflexivity|]. split; [lia|]. exists (leaf_of a' 1). split; [rewrite Nodes; eqbs; reflexivity|].
          split; [exact A'|]. split; [now rewrite <- Ea'|].
          split; [unfold tag_list; cbn; rewrite Tags; unfold set_tag; now rewrite Z.eqb_refl|]. split; reflexivity. }
        assert (Bc : firstn m (abits a) = wbits (a_word a) (Z.of_nat m)).
        { unfold abits. rewrite <- (Nat2Z.id m) at 1. apply wbits_firstn. lia. }
        split.
        { unfold cn in Nodes. destruct hs; (split; [reflexivity|]; split; [lia|]; eexists;
            split; [rewrite Nodes; eqbs; reflexivity|];
            split; [split; [exact Aw | cbn; lia]|]; split; [exact Bc|]; split; [reflexivity|]; split; assumption). }
        split; [rewrite Nodes; eqbs; reflexivity|].
        split; [now apply Tl|].
        split.
        { intros j J1 J2 J3. apply Sm; auto. intros ->. apply J1. now left. }
        split; [|rewrite Len; lia].
        split; [exact Av|]. rewrite Len, Cp. split; [lia|]. split; [lia|].
        intros j nj. rewrite Nodes.
        destruct (Nat.eqb_spec j p) as [->|J1]; [intros H; injection H as <-; specialize (Itags _ _ Ep); destruct s; cbn; lia|].
        destruct (Nat.eqb_spec j N) as [->|J2]; [intros H; injection H as <-; unfold cn; destruct hs; cbn; specialize (Itags _ _ Ep); lia|].
        destruct (Nat.eqb_spec j i) as [->|J3]; [intros H; injection H as <-; specialize (Itags _ _ E); cbn; lia|].
        destruct (Nat.eqb_spec j (S N)) as [->|J4]; [intros H; injection H as <-; cbn; specialize (Itags _ _ Ep); lia|].
        intros H. specialize (Itags _ _ H). lia.
  Qed.

  (** ** Whole trees *)

  Definition rep (t : ptree) (c : Z) (T : trie) : Prop :=
    inv t c /\ repr t 1 T /\ NoDup (ids T) /\ tgood T /\ exists ts l r, T = TNode 1 [] ts l r.

  Lemma new_tree_rep : rep (new_tree W w_zero) 0 (TNode 1 [] [] TLeaf TLeaf).
  Proof.
    split; [|split; [|split; [|split]]].
    - split; [reflexivity|]. split; [cbn; lia|]. split; [cbn; lia|].
      intros [|[|j]] n H; cbn in H; try (injection H as <-; cbn; lia). destruct j; discriminate.
    - split; [reflexivity|]. split; [discriminate|]. eexists. split; [reflexivity|].
      split; [split; [exact zero_ok | cbn; lia]|]. repeat split.
    - repeat constructor. intros [].
    - cbn. tauto.
    - eauto.
  Qed.

  Lemma grow_inv : forall t c, inv t c -> 
    inv (grow W t) c /\ t_nodes (grow W t) = t_nodes t /\ t_tags (grow W t) = t_tags t /\
    (length (t_nodes t) + 2 <= t_cap (grow W t))%nat.
  Proof.
    intros t c I. pose proof I as (A & C & L & B). unfold grow. rewrite A. cbn [length plus].
    destruct (Nat.ltb_spec (t_cap t) (length (t_nodes t) + 10)) as [Q|Q].
    - repeat split; cbn [t_nodes t_cap t_tags t_avail]; auto; lia.
    - repeat split; auto; lia.
  Qed.

  Theorem tree_add_rep : forall t c T a tag, rep t c T -> a_ok a -> 2 + 2 * (c + 1) < 2 ^ 32 ->
    exists t', tree_add W w_match w_shl w_left t a tag = TOk t' /\
               rep t' (c + 1) (ins (length (t_nodes t)) T (abits a) tag).
  Proof.
    intros t0 c T a tag (I0 & R0 & D & G & ts & l & r & ->) A C. 
    destruct (grow_inv t0 c I0) as (I & En & Eg & Cap). unfold tree_add.
    set (t := grow W t0) in *.
    assert (R : repr t 1 (TNode 1 [] ts l r)).
    { eapply repr_frame; [exact R0|]. intros j J. split; [now rewrite En|]. intros n Ej. unfold tag_list. now rewrite Eg. }
    rewrite <- En in Cap. rewrite <- En. clearbody t. clear R0 I0 En Eg t0.
    pose proof (fun j => repr_ids _ _ _ j R) as IDs.
    assert (Fresh : forall j, In j (ids (TNode 1 [] ts l r)) -> (j < length (t_nodes t))%nat) by (intros j J; now apply IDs).
    pose proof (ins_nodup _ _ (abits a) tag D Fresh) as [D' _].
    pose proof (ins_good _ (length (t_nodes t)) (abits a) tag G) as G'.
    destruct R as (_ & _ & n & E & K & B & TS & Rl & Rr). destruct G as (Sl & Sr & Gl & Gr).
    cbn [ids] in D. inversion D as [|? ? Di Dd]; subst x l0. apply nodup_app in Dd as (Dl & Dr & Dlr).
    pose proof I as (Iav & Icap & Ilen & Itags). set (N := length (t_nodes t)) in *.
    assert (N1 : (1 < N)%nat) by (apply nth_error_Some; congruence).
    assert (IDl : forall j, In j (ids l) -> (j < N)%nat /\ j <> 1%nat).
    { intros j J. split; [apply Fresh; right; apply in_app_iff; now left|]. intros ->. apply Di, in_app_iff. now left. }
    assert (IDr : forall j, In j (ids r) -> (j < N)%nat /\ j <> 1%nat).
    { intros j J. split; [apply Fresh; right; apply in_app_iff; now right|]. intros ->. apply Di, in_app_iff. now right. }
    rewrite E. pose proof A as [Aw Al]. unfold rep.
    assert (Lab : length (abits a) = Z.to_nat (a_len a)) by apply wbits_length.
    destruct (Z.eqb_spec (a_len a) 0) as [Z0|Z0].
    - assert (Ea : abits a = []) by (apply wbits_nil; [lia | exact Z0]). rewrite Ea in *.
      unfold Patricia.add_tag. rewrite E. eexists. split; [reflexivity|].
      match goal with |- inv ?u _ /\ _ => set (t' := u) end.
      specialize (Itags 1%nat n E) as H1.
      assert (Sm : forall j, j <> 1%nat -> same_at t t' j).
      { intros j J. apply (same_at_set t t' 1 (n_tags n) tag j c); auto; try lia. unfold t'. look. reflexivity. }
      split.
      { split; [exact Iav|]. unfold t'. cbn [t_nodes t_cap]. rewrite upd_length. fold N. split; [lia|]. split; [lia|].
        intros j nj. look. destruct (Nat.eqb_spec j 1) as [->|J].
        - rewrite E. cbn. intros H. injection H as <-. cbn. lia.
        - intros H. specialize (Itags _ _ H). lia. }
      split; [|split; [exact D'|split; [exact G'|cbn; eauto]]].
      cbn [ins lcp length Nat.eqb]. split; [reflexivity|]. split; [discriminate|]. exists (inc_tags n).
      split; [unfold t'; look; now rewrite E|]. split; [exact K|]. split; [exact B|].
      split; [rewrite TS; symmetry; apply (tag_list_snoc t 1 n tag _ _ _ c); auto|].
      split; (eapply repr_frame; [eassumption|]); intros j J; apply Sm; [apply IDl | apply IDr]; exact J.
    - assert (La : 0 < a_len a) by lia.
      assert (Hs : w_left (a_word a) = head_set (abits a)) by (symmetry; apply wbits_head; auto).
      rewrite Hs. set (v := head_set (abits a)) in *.
      assert (Ins : ins N (TNode 1 [] ts l r) (abits a) tag =
        if v then TNode 1 [] ts l (ins N r (abits a) tag) else TNode 1 [] ts (ins N l (abits a) tag) r).
      { cbn [ins lcp length skipn]. rewrite Lab. rewrite (proj2 (Nat.eqb_neq 0 (Z.to_nat (a_len a)))) by lia. reflexivity. }
      rewrite Ins in *. clear Ins.
      assert (Down : forall T' side, side = v -> (if side then r else l) = T' -> repr t (child side n) T' ->
        (T' <> TLeaf -> exists t', add_loop (S (Z.to_nat (a_len a))) t (child side n) 1 a tag = TOk t' /\ added t t' T' 1 n side (abits a) tag c) ->
        exists t', (if Nat.eqb (child side n) 0
                    then do (t1, j) <- add_leaf t a tag; TOk (upd_node t1 1 (set_child side j))
                    else add_loop (S (Z.to_nat (a_len a))) t (child side n) 1 a tag) = TOk t' /\ added t t' T' 1 n side (abits a) tag c).
      { intros T' side Sv ET RT IH. destruct (Nat.eqb_spec (child side n) 0) as [Q0|Q0].
        - assert (T' = TLeaf).
          { destruct T' as [|k b1 ts1 l1 r1]; [reflexivity|]. destruct RT as (-> & K0 & _). congruence. }
          rewrite add_leaf_eq by (auto; lia). cbn [tbind]. fold N.
          eexists. split; [reflexivity|]. exists N. rewrite H. cbn [ins].
          match goal with |- repr ?u _ _ /\ _ => set (t' := u) end.
          assert (Sm : forall j, j <> 1%nat -> j <> N -> same_at t t' j).
          { intros j J1 J2. apply (same_at_set t t' N 0 tag j c); auto; try lia.
            unfold t'. look. reflexivity. }
          split.
          { split; [reflexivity|]. split; [lia|]. exists (leaf_of a 1).
            split; [unfold t'; look; reflexivity|]. split; [exact A|]. split; [reflexivity|].
            split; [unfold tag_list; cbn; unfold set_tag; now rewrite Z.eqb_refl|]. split; reflexivity. }
          split; [unfold t'; look; now rewrite E|].
          split; [apply (tag_list_other t N 0 tag 1 n [] 0%nat [] c); auto; lia|].
          split; [intros j J1 J2 J3; apply Sm; auto; fold N in J3; lia|].
          split.
          { split; [reflexivity|]. unfold t'. cbn [t_nodes Patricia.upd_node Patricia.with_nodes t_cap].
            rewrite !upd_length, app_length. fold N. cbn [length]. split; [lia|]. split; [lia|].
            intros j nj. look. destruct (Nat.eqb_spec j 1) as [->|J1]; [fold N; eqbs; rewrite E; intros Q; injection Q as <-; specialize (Itags _ _ E); destruct side; cbn; lia|].
            fold N. destruct (Nat.eqb_spec j N) as [->|J2]; [intros Q; injection Q as <-; cbn; specialize (Itags _ _ E); lia|].
            intros Q. specialize (Itags _ _ Q). lia. }
          unfold t'. cbn [t_nodes Patricia.upd_node Patricia.with_nodes]. rewrite !upd_length, app_length. fold N. lia.
        - apply IH. intros ->. apply Q0. exact RT. }
      assert (Fin : forall side t', side = v -> added t t' (if side then r else l) 1 n side (abits a) tag c ->
        inv t' (c + 1) /\
        repr t' 1 (if side then TNode 1 [] ts l (ins N r (abits a) tag) else TNode 1 [] ts (ins N l (abits a) tag) r)).
      { intros side t' Sv (root & Ra & Pa & Ta & Sa & Va & Ga). fold N in Ra, Sa, Ga. split; [exact Va|].
        assert (Sib : repr t' (child (negb side) n) (if side then l else r)).
        { destruct side; (eapply repr_frame; [eassumption|]); intros j J; apply Sa.
          - now apply Dlr.
          - now apply IDl.
          - now apply IDl.
          - intros Q. now apply (Dlr j).
          - now apply IDr.
          - now apply IDr. }
        destruct side; cbn [negb child] in Sib; (split; [reflexivity|]; split; [discriminate|]; eexists;
          split; [exact Pa|]; split; [exact K|]; split; [exact B|];
          split; [rewrite TS; symmetry; exact Ta|]; split; assumption). }
      destruct v eqn:Ev; cbn [negb].
      + destruct (Down r true eq_refl eq_refl Rr) as (t' & Et & At).
        { intros NLr. apply add_loop_ok; auto.
          - fold v. now rewrite Ev.
          - intros J. apply IDr in J. tauto.
          - intros _ Q. pose proof (repr_root_in _ _ _ Rr) as X. cbn in Q.
            assert (n_right n <> 0%nat) by (destruct r; [congruence|]; destruct Rr as (-> & Q0 & _); exact Q0).
            specialize (X H). apply (Dlr (n_right n)); [|exact X]. rewrite <- Q. apply (repr_root_in _ _ _ Rl). congruence. }
        exists t'. split; [exact Et|]. destruct (Fin true t' eq_refl At) as [F1 F2].
        split; [exact F1|]. split; [exact F2|]. split; [exact D'|]. split; [exact G'|eauto].
      + destruct (Down l false eq_refl eq_refl Rl) as (t' & Et & At).
        { intros NLl. apply add_loop_ok; auto.
          - fold v. now rewrite Ev.
          - intros J. apply IDl in J. tauto.
          - discriminate. }
        exists t'. split; [exact Et|]. destruct (Fin false t' eq_refl At) as [F1 F2].
        split; [exact F1|]. split; [exact F2|]. split; [exact D'|]. split; [exact G'|eauto].
  Qed.

  (** ** Lookup *)

  Lemma find_loop_walk : forall T fuel t i a ret, repr t i T -> tgood T -> a_ok a -> 0 < a_len a ->
    starts (head_set (abits a)) T -> (Z.to_nat (a_len a) < fuel)%nat ->
    find_loop fuel t i a ret = TOk (ret ++ walk T (abits a)).
  Proof.
    induction T as [|i' b ts l IHl r IHr]; intros fuel t i a ret R G A La S F; (destruct fuel as [|fuel]; [lia|]).
    { cbn in R. subst i. cbn. now rewrite app_nil_r. }
    destruct R as (-> & I0 & n & E & K & B & TS & Rl & Rr).
    destruct G as (Sl & Sr & Gl & Gr). destruct S as [Bne Hb].
    cbn [Patricia.find_loop]. rewrite (proj2 (Nat.eqb_neq i 0)) by exact I0. rewrite E.
    pose proof (match_count_lcp n a K A) as MC. rewrite <- B in MC. rewrite MC. cbn [walk].
    set (m := lcp b (abits a)) in *.
    assert (Lb : length b = Z.to_nat (n_len n)) by (rewrite B; apply wbits_length).
    assert (Lab : length (abits a) = Z.to_nat (a_len a)) by apply wbits_length.
    pose proof (lcp_le b (abits a)) as [L1 L2]. fold m in L1, L2.
    destruct K as [Kw Kl]. pose proof A as [Aw Al].
    assert (M0 : (0 < m)%nat).
    { unfold m. destruct b as [|y b']; [congruence|].
      destruct (abits a) as [|z a'] eqn:Ea; [cbn in Lab; lia|]. cbn in Hb. subst.
      cbn. rewrite Bool.eqb_reflx. lia. }
    destruct (Z.ltb_spec (Z.of_nat m) (n_len n)) as [Q|Q].
    { rewrite (proj2 (Nat.eqb_neq m (length b))) by lia. now rewrite app_nil_r. }
    rewrite (proj2 (Nat.eqb_eq m (length b))) by lia.
    assert (TS' : (if Nat.ltb 0 (n_tags n) then ret ++ tags_for_node W t i else ret) = ret ++ ts).
    { unfold tags_for_node. rewrite E, TS. unfold tag_list. destruct (n_tags n); cbn [Nat.ltb Nat.leb]; [cbn; now rewrite app_nil_r | reflexivity]. }
    rewrite TS'. clear TS'.
    destruct (Z.eqb_spec (Z.of_nat m) (a_len a)) as [Ma|Ma].
    { rewrite (proj2 (Nat.eqb_eq (length b) (length (abits a)))) by lia. now rewrite app_nil_r. }
    rewrite (proj2 (Nat.eqb_neq (length b) (length (abits a)))) by lia.
    set (a' := a_shift a (Z.of_nat m)).
    assert (A' : a_ok a') by (apply a_shift_ok; auto; lia).
    assert (Ea' : abits a' = skipn (length b) (abits a)).
    { unfold a'. rewrite a_shift_bits by (auto; lia). rewrite Nat2Z.id. f_equal. lia. }
    assert (La' : 0 < a_len a') by (unfold a'; cbn; lia).
    assert (Hs : w_left (a_word a') = head_set (abits a')) by (symmetry; apply wbits_head; [apply A' | exact La']).
    rewrite <- Ea', Hs. assert (F' : (Z.to_nat (a_len a') < fuel)%nat) by (unfold a'; cbn; lia).
    destruct (head_set (abits a')) eqn:Ev; cbn [negb].
    - rewrite IHr; auto; [now rewrite app_assoc | now rewrite Ev].
    - rewrite IHl; auto; [now rewrite app_assoc | now rewrite Ev].
  Qed.

  Theorem find_tags_walk : forall t c T a, rep t c T -> a_ok a ->
    find_tags W w_match w_shl w_left t a = TOk (walk T (abits a)).
  Proof.
    intros t c T a (_ & R & _ & G & ts & l & r & ->) A. unfold find_tags.
    destruct R as (_ & _ & n & E & K & B & TS & Rl & Rr). destruct G as (Sl & Sr & Gl & Gr). rewrite E.
    pose proof A as [Aw Al].
    assert (Lab : length (abits a) = Z.to_nat (a_len a)) by apply wbits_length.
    assert (TS' : (if Nat.ltb 0 (n_tags n) then tags_for_node W t 1 else []) = ts).
    { unfold tags_for_node. rewrite E, TS. unfold tag_list. destruct (n_tags n); reflexivity. }
    rewrite TS'. cbn [walk lcp length skipn Nat.eqb].
    destruct (Z.eqb_spec (a_len a) 0) as [Z0|Z0].
    - assert (Ea : abits a = []) by (apply wbits_nil; [lia | exact Z0]). rewrite Ea. cbn. now rewrite app_nil_r.
    - assert (La : 0 < a_len a) by lia.
      destruct (abits a) as [|z a'] eqn:Ea; [cbn in Lab; lia|]. cbn [length]. rewrite <- Ea in *.
      assert (Hs : w_left (a_word a) = head_set (abits a)) by (symmetry; apply wbits_head; auto).
      rewrite Hs. destruct (head_set (abits a)) eqn:Ev; cbn [negb];
        apply find_loop_walk; auto; try (now rewrite Ev); lia.
  Qed.

  (** ** Any sequence of insertions *)

  Fixpoint add_all (t : ptree) (l : list (paddr * Z)) : tres ptree :=
    match l with
    | [] => TOk t
    | (a, tag) :: l' => do t' <- tree_add W w_match w_shl w_left t a tag; add_all t' l'
    end.

  Definition at_bits (l : list (paddr * Z)) (q : list bool) : list Z :=
    map snd (filter (fun e => bits_eqb (abits (fst e)) q) l).

  Lemma add_all_rep : forall l t c T, rep t c T -> (forall e, In e l -> a_ok (fst e)) -> 0 <= c ->
    2 + 2 * (c + Z.of_nat (length l)) < 2 ^ 32 ->
    exists t' T', add_all t l = TOk t' /\ rep t' (c + Z.of_nat (length l)) T' /\
      forall q, tags_at T' q = tags_at T q ++ at_bits l q.
  Proof.
    induction l as [|[a tag] l IH]; intros t c T R A C0 C.
    - exists t, T. cbn [length]. rewrite Z.add_0_r. repeat split; try apply R. intros q. cbn. now rewrite app_nil_r.
    - destruct (tree_add_rep t c T a tag R) as (t1 & E1 & R1); [apply (A (a, tag)); now left | cbn [length] in C; lia|].
      destruct (IH t1 (c + 1) _ R1) as (t' & T' & E' & R' & H').
      { intros e I. apply A. now right. } { lia. } { cbn [length] in C. lia. }
      exists t', T'. cbn [add_all]. rewrite E1. cbn [tbind]. split; [exact E'|]. split.
      { replace (c + Z.of_nat (length ((a, tag) :: l))) with (c + 1 + Z.of_nat (length l)) by (cbn [length]; lia). exact R'. }
      intros q. rewrite H', tags_at_ins by apply R. rewrite <- app_assoc. f_equal.
      unfold at_bits, at_ins. cbn [filter fst]. 
      destruct (bits_eqb q (abits a)) eqn:Q.
      + apply bits_eqb_eq in Q. subst q. rewrite (proj2 (bits_eqb_eq _ _) eq_refl). reflexivity.
      + apply bits_eqb_neq in Q. rewrite (proj2 (bits_eqb_neq (abits a) q)) by congruence. reflexivity.
  Qed.

  (** After any insertions, a lookup gives the tags of the prefixes of the
      address, shortest prefix first, in order of insertion for equal ones. *)
  Theorem find_after_adds : forall l, (forall e, In e l -> a_ok (fst e)) -> 2 + 2 * Z.of_nat (length l) < 2 ^ 32 ->
    exists t, add_all (new_tree W w_zero) l = TOk t /\
      forall a, a_ok a -> find_tags W w_match w_shl w_left t a =
        TOk (flat_map (fun k => at_bits l (firstn k (abits a))) (seq 0 (S (length (abits a))))).
  Proof.
    intros l A C. destruct (add_all_rep l _ 0 _ new_tree_rep A) as (t & T & E & R & H); [lia | lia|].
    exists t. split; [exact E|]. intros a Ka. rewrite (find_tags_walk t _ T a R Ka).
    rewrite walk_prefixes by apply R. f_equal. apply flat_map_ext_in. intros k _. rewrite H.
    replace (tags_at (TNode 1 [] [] TLeaf TLeaf) (firstn k (abits a))) with (@nil Z); [reflexivity|].
    cbn [tags_at lcp length Nat.eqb skipn]. destruct (bits_eqb [] _); [reflexivity|]. now destruct (head_set _).
  Qed.
End Refine.
