(** Filters, digest and entity tag. *)
From Coq Require Import String Lia Permutation Sorted.
From Verif.Model Require Import Base NetIP CertRes Roa Str Tal Validator TalText NetText Output.
From Verif.Spec Require Import Addr Resources Trust OutputSpec.
From Verif.Proofs Require Import StrProofs NetIPProofs EncodeProofs CertProofs NetTextProofs.
Open Scope Z_scope.
Arguments dec : simpl never.

(** * Keys *)
Lemma last_sep (s : Z) a : forall x b y, ~ In s x -> ~ In s y -> a ++ s :: x = b ++ s :: y -> a = b /\ x = y.
Proof.
  induction a as [|c a IH]; intros x b y X Y H.
  - destruct b as [|d b]; [injection H as H; auto|].
    injection H as <- H. exfalso. apply X. rewrite H. apply in_or_app. right. now left.
  - destruct b as [|d b].
    + injection H as -> H. exfalso. apply Y. rewrite <- H. apply in_or_app. right. now left.
    + injection H as <- H. destruct (IH x b y X Y H) as [-> ->]. auto.
Qed.

Lemma first_sep (s : Z) a : forall x b y, ~ In s a -> ~ In s b -> a ++ s :: x = b ++ s :: y -> a = b /\ x = y.
Proof.
  induction a as [|c a IH]; intros x b y X Y H.
  - destruct b as [|d b]; [injection H as H; auto|].
    injection H as <- H. exfalso. apply Y. now left.
  - destruct b as [|d b].
    + injection H as -> H. exfalso. apply X. now left.
    + injection H as <- H. destruct (IH x b y) as [-> ->]; auto; intros Z; [apply X|apply Y]; now right.
Qed.

Lemma dec_no_slash z : ~ In 47 (dec z).
Proof. apply dec_no_byte; [discriminate|reflexivity]. Qed.
Lemma dec_no_comma z : ~ In 44 (dec z).
Proof. apply dec_no_byte; [discriminate|reflexivity]. Qed.

Lemma j_string_inj a b : ~ In 47 (j_asn a) -> ~ In 47 (j_asn b) -> j_string a = j_string b <-> vrp a = vrp b.
Proof.
  intros A B. unfold j_string, vrp. split; intros H.
  - cbn [app] in H.
    assert (j_prefix a ++ [47] ++ dec (j_len a) = j_prefix b ++ [47] ++ dec (j_len b) /\ j_asn a = j_asn b) as [H1 H2].
    { apply (last_sep 47); auto. rewrite <- !app_assoc. exact H. }
    cbn [app] in H1. destruct (last_sep 47 _ _ _ _ (dec_no_slash _) (dec_no_slash _) H1) as [-> D].
    apply dec_inj in D. congruence.
  - inversion H. congruence.
Qed.

(** * Duplicates *)
Lemma kin_kset (m : kmap unit) k k' : kin (kset m k tt) k' = beq k' k || kin m k'.
Proof.
  unfold kin, kset. destruct (beq k' k) eqn:E; reflexivity.
Qed.

Lemma dedup_spec l : (forall r, In r l -> ~ In 47 (j_asn r)) -> forall seen (old : list roajson),
  (forall r, In r old -> ~ In 47 (j_asn r)) ->
  (forall k, kin seen k = true <-> exists r, In r old /\ j_string r = k) ->
  subseq (dedup seen l) l /\
  NoDup (map vrp (dedup seen l)) /\
  (forall r, In r (dedup seen l) -> ~ In (vrp r) (map vrp old) /\
     exists pre post, l = pre ++ r :: post /\ ~ In (vrp r) (map vrp pre)) /\
  (forall r, In r l -> In (vrp r) (map vrp old) \/ In (vrp r) (map vrp (dedup seen l))).
Proof.
  induction l as [|r l IH]; intros NS seen old NO K; cbn [dedup].
  - split; [constructor|]. split; [constructor|]. split; intros r [].
  - assert (NS' : forall r, In r l -> ~ In 47 (j_asn r)) by (intros; apply NS; now right).
    destruct (kin seen (j_string r)) eqn:E.
    + destruct (IH NS' seen old NO K) as (I1 & I2 & I3 & I4).
      apply K in E. destruct E as (q & Q1 & Q2).
      apply j_string_inj in Q2; [|now apply NO|apply NS; now left].
      assert (IO : In (vrp r) (map vrp old)) by (rewrite <- Q2; now apply in_map).
      split; [now constructor|]. split; [assumption|]. split.
      * intros x X. destruct (I3 x X) as (X1 & pre & post & -> & X2). split; [assumption|].
        exists (r :: pre), post. split; [reflexivity|]. cbn [map]. intros [Y|Y]; [congruence|contradiction].
      * intros x [<-|X]; [now left|now apply I4].
    + assert (K' : forall k, kin (kset seen (j_string r) tt) k = true <-> exists x, In x (r :: old) /\ j_string x = k).
      { intros k. rewrite kin_kset, orb_true_iff, beq_eq, K. split.
        - intros [->|(x & X1 & X2)]; [exists r; split; [now left|reflexivity]|exists x; split; [now right|assumption]].
        - intros (x & [<-|X1] & X2); [left; congruence|right; eauto]. }
      assert (NO' : forall x, In x (r :: old) -> ~ In 47 (j_asn x)).
      { intros x [<-|X]; [apply NS; now left|now apply NO]. }
      destruct (IH NS' _ _ NO' K') as (I1 & I2 & I3 & I4).
      assert (NR : ~ In (vrp r) (map vrp old)).
      { intros X. apply in_map_iff in X. destruct X as (q & Q & X).
        assert (kin seen (j_string r) = true); [|congruence]. apply K. exists q. split; [assumption|].
        apply j_string_inj; auto. apply NS; now left. }
      split; [now constructor|]. cbn [map]. split; [|split].
      * constructor; [|assumption]. intros X. apply in_map_iff in X. destruct X as (q & Q & X).
        destruct (I3 q X) as (Y & _). apply Y. rewrite Q. now left.
      * intros x [<-|X].
        -- split; [assumption|]. exists [], l. split; [reflexivity|]. intros [].
        -- destruct (I3 x X) as (X1 & pre & post & -> & X2). split; [intros Y; apply X1; now right|].
           exists (r :: pre), post. split; [reflexivity|]. cbn [map]. intros [Y|Y]; [|contradiction].
           apply X1. left. exact Y.
      * intros x [<-|X]; [right; now left|]. destruct (I4 x X) as [[Y|Y]|Y]; auto.
        -- right. left. exact Y.
        -- right. now right.
Qed.

Lemma filter_duplicates_spec l : (forall r, In r l -> ~ In 47 (j_asn r)) ->
  subseq (filter_duplicates l) l /\
  NoDup (map vrp (filter_duplicates l)) /\
  (forall r, In r (filter_duplicates l) -> first_of l r) /\
  (forall r, In r l -> In (vrp r) (map vrp (filter_duplicates l))).
Proof.
  intros N. destruct (dedup_spec l N kempty []) as (H1 & H2 & H3 & H4).
  - intros r [].
  - intros k. split; [discriminate|]. intros (r & [] & _).
  - split; [assumption|]. split; [assumption|]. split.
    + intros r R. destruct (H3 r R) as (_ & P). exact P.
    + intros r R. destruct (H4 r R) as [[]|P]. exact P.
Qed.

Lemma subseq_in {A} (a b : list A) : subseq a b -> forall x, In x a -> In x b.
Proof. induction 1; intros y; cbn; intuition. Qed.

Lemma subseq_length {A} (a b : list A) : subseq a b -> (length a <= length b)%nat.
Proof. induction 1; cbn; lia. Qed.

Lemma subseq_same {A} (a b : list A) : subseq a b -> length a = length b -> a = b.
Proof.
  induction 1; cbn; intros L; auto.
  - f_equal. apply IHsubseq. lia.
  - apply subseq_length in H. lia.
Qed.

Lemma subseq_trans {A} (a b c : list A) : subseq a b -> subseq b c -> subseq a c.
Proof.
  intros H1 H2. revert a H1. induction H2; intros a' H1; auto.
  - inversion H1; subst; [constructor; auto|apply sub_drop; auto].
  - apply sub_drop; auto.
Qed.

Lemma nodup_kept l : (forall r, In r l -> ~ In 47 (j_asn r)) -> NoDup (map vrp l) -> filter_duplicates l = l.
Proof.
  intros N D. destruct (filter_duplicates_spec l N) as (S & _ & _ & C). apply subseq_same; auto.
  apply Nat.le_antisymm; [now apply subseq_length|].
  rewrite <- (map_length vrp l), <- (map_length vrp (filter_duplicates l)).
  apply NoDup_incl_length; auto. intros x X. apply in_map_iff in X. destruct X as (r & <- & R). now apply C.
Qed.

(** * Prefix lengths *)
Lemma get_prefix_shows r ip p : shows r ip p ->
  get_prefix r = Some (mkNet (and_bytes ip (cidr_mask p (addr_bits ip))) (cidr_mask p (addr_bits ip))).
Proof. intros (A & P & E). unfold get_prefix. rewrite E. now apply cidr_roundtrip. Qed.

Lemma and_bytes_len a : forall m, length m = length a -> length (and_bytes a m) = length a.
Proof. induction a as [|x a IH]; intros [|y m] L; cbn in *; auto; discriminate. Qed.

(** Clearing host bits gives the first address. *)
Lemma and_bytes_first ip p : plain_addr ip -> 0 <= p <= addr_bits ip ->
  let m := and_bytes ip (cidr_mask p (addr_bits ip)) in
  bytes_ok m = true /\ length m = length ip /\ addr_val m = first_addr (addr_bits ip) p (addr_val ip).
Proof.
  intros (O & L & N) P. cbv zeta. unfold addr_bits in *. rewrite cidr_mask_ok by assumption.
  destruct (range_loop_spec ip p O P) as (lo & hi & R & L1 & L2 & B1 & B2 & V1 & V2).
  rewrite (and_bytes_range _ _ _ _ R). rewrite !addr_val_bval. auto.
Qed.

Definition kept (r : roajson) : bool :=
  match get_prefix r with
  | Some n => if isSome (to4 (nip n)) then fst (mask_size (nmask n)) <=? 24 else fst (mask_size (nmask n)) <=? 48
  | None => false
  end.

Lemma filter_prefix_len_ret l : (forall r, In r l -> get_prefix r <> None) ->
  filter_prefix_len l = Ret (filter kept l).
Proof.
  induction l as [|r l IH]; intros H; [reflexivity|]. cbn [filter_prefix_len filter].
  unfold kept at 1. destruct (get_prefix r) as [n|] eqn:E; [|exfalso; apply (H r); [now left|assumption]].
  rewrite IH by (intros; apply H; now right). cbn [gbind].
  destruct (isSome (to4 (nip n))).
  - destruct (_ <=? 24); reflexivity.
  - destruct (_ <=? 48); reflexivity.
Qed.

Lemma filter_prefix_len_panic l : filter_prefix_len l = Panic <-> exists r, In r l /\ get_prefix r = None.
Proof.
  split.
  - intros H. induction l as [|r l IH]; [discriminate|]. cbn [filter_prefix_len] in H.
    destruct (get_prefix r) as [n|] eqn:E; [|exists r; split; [now left|assumption]].
    destruct (filter_prefix_len l) as [x|]; cbn [gbind] in H.
    + destruct (isSome _); discriminate.
    + destruct (IH eq_refl) as (q & Q & G). exists q. split; [now right|assumption].
  - intros (r & I & G). induction l as [|q l IH]; [destruct I|]. cbn [filter_prefix_len].
    destruct I as [->|I]; [now rewrite G|]. rewrite (IH I). destruct (get_prefix q); reflexivity.
Qed.

Lemma filter_prefix_len_data l l' : filter_prefix_len l = Ret l' -> l' = filter kept l.
Proof.
  intros H. rewrite filter_prefix_len_ret in H; [congruence|]. intros r I G.
  assert (filter_prefix_len l = Panic) by (apply filter_prefix_len_panic; eauto). congruence.
Qed.

(** A prefix whose first address is outside the mapped range keeps its
    family; the text of any plain prefix is read back in the same family. *)
Lemma first_not_mapped ip p : plain_addr ip -> 0 <= p <= addr_bits ip -> length ip = 16%nat ->
  v4mapped (first_addr (addr_bits ip) p (addr_val ip)) -> 80 <= p.
Proof.
  intros (O & _ & N) P L M. specialize (N L). unfold addr_bits in *. rewrite L in *. cbn in P.
  unfold v4mapped, first_addr in *. change (8 * Z.of_nat 16) with 128 in *.
  destruct (Z.le_gt_cases 80 p) as [|G]; [assumption|exfalso].
  set (v := addr_val ip) in *. clearbody v.
  assert (0 < 2 ^ (128 - p)) by (apply Z.pow_pos_nonneg; lia).
  pose proof (Z.mod_pos_bound v (2 ^ (128 - p)) ltac:(lia)).
  assert (2 ^ 48 <= 2 ^ (128 - p)) by (apply Z.pow_le_mono_r; lia).
  assert (v - v mod 2 ^ (128 - p) = 2 ^ (128 - p) * (v / 2 ^ (128 - p))) as D by (rewrite (Z.div_mod v (2 ^ (128 - p))) at 1; lia).
  rewrite D in M. set (q := v / 2 ^ (128 - p)) in *. clearbody q.
  assert (q = 0 \/ 1 <= q \/ q <= -1) as [->|[Q|Q]] by lia; [lia| |nia].
  assert (2 ^ 48 * 1 <= 2 ^ (128 - p) * q) by (apply Z.mul_le_mono_nonneg; lia). lia.
Qed.

Lemma kept_shows r ip p : shows r ip p -> kept r = (p <=? longest ip).
Proof.
  intros S. pose proof (get_prefix_shows _ _ _ S) as G. destruct S as (A & P & _).
  unfold kept. rewrite G. cbn [nip nmask].
  pose proof (and_bytes_first ip p A P) as (B & L & V). cbv zeta in *.
  destruct A as (O & F & N). unfold addr_bits in *.
  destruct F as [F|F].
  - rewrite (to4_len4 (and_bytes _ _)) by congruence. cbn [isSome].
    rewrite mask_size_cidr by auto. cbn [fst]. unfold longest. rewrite F. reflexivity.
  - rewrite mask_size_cidr by auto. cbn [fst]. unfold longest. rewrite F. cbn [Nat.eqb].
    destruct (to4 (and_bytes ip _)) eqn:T; cbn [isSome]; [|reflexivity].
    pose proof (to4_len16 (and_bytes ip (cidr_mask p (8 * Z.of_nat (length ip)))) ltac:(congruence) B) as M.
    rewrite <- addr_val_bval, V, F, T in M.
    assert (80 <= p) as G80.
    { apply (first_not_mapped ip p); auto; [repeat split; auto|]. unfold addr_bits, v4mapped. rewrite F.
      destruct M as (M1 & M2 & M3). pose proof (bval_bound b M2) as BB. rewrite M1 in BB. cbn in BB. lia. }
    transitivity false; [apply Z.leb_gt; lia|symmetry; apply Z.leb_gt; lia].
Qed.

(** * Digest *)
Lemma cmp_cases a : forall b, bytes_compare a b = -1 \/ bytes_compare a b = 0 \/ bytes_compare a b = 1.
Proof.
  induction a as [|x a IH]; intros [|y b]; cbn [bytes_compare]; auto.
  destruct (x <? y); auto. destruct (y <? x); auto.
Qed.
Lemma cmp_eq a : forall b, bytes_compare a b = 0 <-> a = b.
Proof.
  induction a as [|x a IH]; intros [|y b]; cbn [bytes_compare]; try (split; congruence).
  destruct (x <? y) eqn:A; [apply Z.ltb_lt in A; split; [discriminate|intros H; inversion H; lia]|].
  destruct (y <? x) eqn:B; [apply Z.ltb_lt in B; split; [discriminate|intros H; inversion H; lia]|].
  apply Z.ltb_ge in A. apply Z.ltb_ge in B. assert (x = y) by lia. subst. rewrite IH. split; congruence.
Qed.
Lemma cmp_anti a : forall b, bytes_compare b a = - bytes_compare a b.
Proof.
  induction a as [|x a IH]; intros [|y b]; cbn [bytes_compare]; try reflexivity.
  destruct (x <? y) eqn:A; destruct (y <? x) eqn:B; try reflexivity; [|apply IH].
  apply Z.ltb_lt in A. apply Z.ltb_lt in B. lia.
Qed.
Lemma cmp_trans a : forall b c, bytes_compare a b <= 0 -> bytes_compare b c <= 0 -> bytes_compare a c <= 0.
Proof.
  induction a as [|x a IH]; intros [|y b] [|z c]; cbn [bytes_compare]; try lia.
  destruct (x <? y) eqn:A; destruct (y <? z) eqn:B; destruct (x <? z) eqn:C; try lia;
    destruct (y <? x) eqn:A'; destruct (z <? y) eqn:B'; destruct (z <? x) eqn:C'; try lia;
    rewrite ?Z.ltb_lt, ?Z.ltb_ge in *; try lia. apply IH.
Qed.

Definition lele (a b : bytes) : Prop := bytes_compare a b <= 0.

Lemma insert_perm x l : Permutation (insert_line x l) (x :: l).
Proof.
  induction l as [|y l IH]; cbn [insert_line]; [reflexivity|]. destruct (_ <=? 0); [reflexivity|].
  rewrite IH. apply perm_swap.
Qed.
Lemma insert_sorted x l : StronglySorted lele l -> StronglySorted lele (insert_line x l).
Proof.
  induction 1 as [|y l S IH F]; cbn [insert_line]; [repeat constructor|].
  destruct (bytes_compare x y <=? 0) eqn:E.
  - apply Z.leb_le in E. constructor; [constructor; assumption|]. constructor; [exact E|].
    revert F. apply Forall_impl. intros z. unfold lele. now apply cmp_trans.
  - apply Z.leb_gt in E. constructor; [assumption|].
    apply Forall_forall. intros z Zi. apply (Permutation_in _ (insert_perm x l)) in Zi.
    destruct Zi as [<-|Zi]; [unfold lele; rewrite cmp_anti; lia|]. rewrite Forall_forall in F. now apply F.
Qed.
Lemma sort_perm l : Permutation (sort_lines l) l.
Proof. induction l as [|x l IH]; cbn; [reflexivity|]. rewrite insert_perm. now constructor. Qed.
Lemma sort_sorted l : StronglySorted lele (sort_lines l).
Proof. induction l as [|x l IH]; cbn; [constructor|]. now apply insert_sorted. Qed.

Lemma sorted_unique a : forall b, StronglySorted lele a -> StronglySorted lele b -> Permutation a b -> a = b.
Proof.
  induction a as [|x a IH]; intros b SA SB P.
  - apply Permutation_nil in P. congruence.
  - destruct b as [|y b]; [apply Permutation_sym, Permutation_nil in P; discriminate|].
    inversion SA as [|? ? SA' FA]; inversion SB as [|? ? SB' FB]; subst.
    assert (x = y) as ->.
    { assert (In y (x :: a)) as IY by (apply (Permutation_in _ (Permutation_sym P)); now left).
      assert (In x (y :: b)) as IX by (apply (Permutation_in _ P); now left).
      rewrite Forall_forall in FA, FB.
      destruct IY as [->|IY]; [reflexivity|]. destruct IX as [->|IX]; [reflexivity|].
      specialize (FA y IY). specialize (FB x IX). unfold lele in *. rewrite cmp_anti in FB.
      apply cmp_eq. lia. }
    f_equal. apply IH; auto. now apply Permutation_cons_inv in P.
Qed.

Lemma sort_perm_eq a b : Permutation a b -> sort_lines a = sort_lines b.
Proof.
  intros P. apply sorted_unique; try apply sort_sorted. rewrite sort_perm, P. symmetry. apply sort_perm.
Qed.

Lemma digest1_perm m m' a b : Permutation a b -> digest1_text (mkList m a) = digest1_text (mkList m' b).
Proof. intros P. unfold digest1_text. cbn [l_data]. f_equal. apply sort_perm_eq. now apply Permutation_map. Qed.

(** What the digest text determines. *)
Definition vline (x : bytes * Z * bytes) : bytes :=
  let '(p, n, a) := x in p ++ [44] ++ dec n ++ [44] ++ a ++ [44].
Lemma sign_line_vrp r : sign_line r = vline (vrp r).
Proof. reflexivity. Qed.
Definition vrp_clean (x : bytes * Z * bytes) : Prop := no_comma (fst (fst x)) /\ no_comma (snd x).

Lemma vline_split x y s t : vrp_clean x -> vrp_clean y -> vline x ++ s = vline y ++ t -> x = y /\ s = t.
Proof.
  destruct x as [[p n] a], y as [[p' n'] a']. intros [X1 X2] [Y1 Y2] H. cbn [fst snd] in *.
  unfold vline in H. rewrite <- !app_assoc in H. cbn [app] in H.
  destruct (first_sep 44 _ _ _ _ X1 Y1 H) as [-> H1].
  destruct (first_sep 44 _ _ _ _ (dec_no_comma n) (dec_no_comma n') H1) as [D H2].
  apply dec_inj in D. subst.
  destruct (first_sep 44 _ _ _ _ X2 Y2 H2) as [-> ->]. auto.
Qed.

Lemma concat_lines a : forall b s t, Forall vrp_clean a -> Forall vrp_clean b -> no_comma s -> no_comma t ->
  concat (map vline a) ++ s = concat (map vline b) ++ t -> a = b /\ s = t.
Proof.
  assert (HC : forall x r, In 44 (vline x ++ r)).
  { intros [[p n] c] r. unfold vline. rewrite !in_app_iff. left. right. left. now left. }
  induction a as [|x a IH]; intros [|y b] s t A B S T H; cbn [map concat] in H.
  - auto.
  - exfalso. apply S. cbn [app] in H. rewrite H, <- app_assoc. apply HC.
  - exfalso. apply T. cbn [app] in H. rewrite <- H, <- app_assoc. apply HC.
  - inversion A; inversion B; subst. rewrite <- !app_assoc in H.
    destruct (vline_split x y _ _ H2 H6 H) as [-> H'].
    destruct (IH b s t H3 H7 S T H') as [-> ->]. auto.
Qed.

Lemma map_inj_on {A B} (f : A -> B) (P : A -> Prop) : (forall x y, P x -> P y -> f x = f y -> x = y) ->
  forall a b, Forall P a -> Forall P b -> map f a = map f b -> a = b.
Proof.
  intros I. induction a as [|x a IH]; intros [|y b] A' B' H; try discriminate; auto.
  inversion A'; inversion B'; inversion H; subst. f_equal; auto.
Qed.

Lemma vline_inj x y : vrp_clean x -> vrp_clean y -> vline x = vline y -> x = y.
Proof.
  intros X Y H. destruct (vline_split x y [] [] X Y) as [E _]; [now rewrite !app_nil_r|exact E].
Qed.

Lemma perm_map_inj {A B} (f : A -> B) (P : A -> Prop) : (forall x y, P x -> P y -> f x = f y -> x = y) ->
  forall a b, Forall P a -> Forall P b -> Permutation (map f a) (map f b) -> Permutation a b.
Proof.
  intros I a b FA FB H. apply Permutation_sym, Permutation_map_inv in H. destruct H as (l & E & H).
  assert (Forall P l) as FL.
  { apply Forall_forall. intros x X. rewrite Forall_forall in FA. apply FA. apply (Permutation_in _ (Permutation_sym H)), X. }
  apply (map_inj_on f P I) in E; auto. subst. exact H.
Qed.

Lemma sorted_is_map (a : list (bytes * Z * bytes)) : exists a', sort_lines (map vline a) = map vline a' /\ Permutation a a'.
Proof.
  pose proof (sort_perm (map vline a)) as P. apply Permutation_map_inv in P.
  destruct P as (l & E & P). exists l. split; auto.
Qed.

Definition clean_list (l : list roajson) : Prop := Forall (fun r => no_comma (j_prefix r) /\ no_comma (j_asn r)) l.

Lemma clean_vrps l : clean_list l -> Forall vrp_clean (map vrp l).
Proof. unfold clean_list. rewrite Forall_map. exact (fun x => x). Qed.

Lemma perm_clean a b : Permutation a b -> Forall vrp_clean a -> Forall vrp_clean b.
Proof. intros P F. rewrite Forall_forall in *. intros x X. apply F, (Permutation_in _ (Permutation_sym P) X). Qed.

Lemma lines_of l : map sign_line l = map vline (map vrp l).
Proof. rewrite map_map. reflexivity. Qed.

Lemma digest2_inj a b : clean_list (l_data a) -> clean_list (l_data b) -> digest2_text a = digest2_text b ->
  Permutation (map vrp (l_data a)) (map vrp (l_data b)) /\
  m_generated (l_meta a) = m_generated (l_meta b) /\ m_valid (l_meta a) = m_valid (l_meta b).
Proof.
  intros A B H. unfold digest2_text in H. cbn [app] in H.
  destruct (first_sep 44 _ _ _ _ (dec_no_comma _) (dec_no_comma _) H) as [G H1].
  apply dec_inj in G. unfold digest1_text in H1. rewrite !lines_of in H1.
  destruct (sorted_is_map (map vrp (l_data a))) as (a' & EA & PA).
  destruct (sorted_is_map (map vrp (l_data b))) as (b' & EB & PB).
  rewrite EA, EB in H1. apply clean_vrps in A. apply clean_vrps in B.
  destruct (concat_lines a' b' _ _ (perm_clean _ _ PA A) (perm_clean _ _ PB B) (dec_no_comma _) (dec_no_comma _) H1)
    as [-> D].
  apply dec_inj in D. split; [|auto]. now rewrite PA, PB.
Qed.

Lemma digest1_inj a b : clean_list (l_data a) -> clean_list (l_data b) -> digest1_text a = digest1_text b ->
  Permutation (map vrp (l_data a)) (map vrp (l_data b)).
Proof.
  intros A B H. unfold digest1_text in H. rewrite !lines_of in H.
  destruct (sorted_is_map (map vrp (l_data a))) as (a' & EA & PA).
  destruct (sorted_is_map (map vrp (l_data b))) as (b' & EB & PB).
  rewrite EA, EB in H. apply clean_vrps in A. apply clean_vrps in B.
  destruct (concat_lines a' b' [] [] (perm_clean _ _ PA A) (perm_clean _ _ PB B)) as [-> _];
    [intros []|intros []|now rewrite !app_nil_r|]. now rewrite PA, PB.
Qed.

(** * The AS number *)
Lemma trim_as z : trim_left (str "aAsS") (str "AS" ++ dec z) = dec z.
Proof.
  change (str "AS" ++ dec z) with (65 :: 83 :: dec z).
  cbn [trim_left]. change (existsb (Z.eqb 65) (str "aAsS")) with true. change (existsb (Z.eqb 83) (str "aAsS")) with true.
  cbv iota. unfold dec. assert (forall u, trim_left (str "aAsS") (uint_bytes u) = uint_bytes u) as U by (destruct u; reflexivity).
  destruct (Z.to_int z); [apply U|reflexivity].
Qed.

Lemma parse_uint32_dec z : parse_uint32 (dec z) = if (0 <=? z) && (z <? 2 ^ 32) then Some z else None.
Proof.
  destruct (0 <=? z) eqn:E.
  - apply Z.leb_le in E. destruct (dec_digits z E) as [D N]. unfold parse_uint32.
    rewrite dec_value by assumption.
    assert (forallb is_digit (dec z) = true) as F by (apply forallb_forall; now apply Forall_forall).
    rewrite F. cbn [andb]. destruct (dec z); [congruence|reflexivity].
  - apply Z.leb_gt in E. unfold dec. destruct z as [|p|p]; try lia. cbn [Z.to_int]. reflexivity.
Qed.
