(** Origin validation follows RFC 6811. *)
From Coq Require Import Lia Permutation.
From Verif.Model Require Import Base NetIP Patricia Ov.
From Verif.Spec Require Import Addr Resources OvSpec.
From Verif.Proofs Require Import NetIPProofs EncodeProofs NetTextProofs TrieProofs PatriciaProofs WordProofs.

(** ** Prefixes as bit strings *)

Lemma be_val : forall l, be l = addr_val l.
Proof. reflexivity. Qed.

Lemma val_bound : forall l, bytes_ok l = true -> 0 <= addr_val l < 2 ^ (8 * Z.of_nat (length l)).
Proof. intros l H. rewrite addr_val_bval, <- pow256. now apply bval_bound. Qed.

Definition bits6 (ip : bytes) : Z * Z := (be (firstn 8 ip), be (skipn 8 ip)).

Lemma parse_prefix : forall n ip p, prefix_is n ip p ->
  parse_from_ipaddr n = if Nat.eqb (length ip) 4 then P4 (mkPA (be ip) p) else P6 (mkPA (bits6 ip) p).
Proof.
  intros n ip p (A & P & ->). cbn [parse_from_ipaddr nip nmask]. rewrite (plain_to4 ip A).
  assert (L : (length ip = 4 \/ length ip = 16)%nat) by apply A.
  unfold addr_bits in *. rewrite mask_size_cidr by auto. cbn [fst].
  destruct L as [L|L]; rewrite L; cbn [Nat.eqb]; [reflexivity|].
  unfold to16. rewrite L. reflexivity.
Qed.

Lemma bits4_string : forall v p, wbits Z bit4 v p = bit_string 32 v p.
Proof. intros. unfold wbits, bit_string. apply map_ext_in. intros i _. unfold bit4. f_equal. Qed.

Lemma word6_string : forall x p, ok6 x -> 0 <= p <= 128 ->
  wbits _ bit6 x p = bit_string 128 (fst x * 2 ^ 64 + snd x) p.
Proof.
  intros [u v] p [X Y] P. cbn [fst snd] in *. unfold wbits, bit_string. apply map_ext_in. intros i I. apply in_seq in I.
  unfold bit6. cbn [fst snd].
  destruct (Z.ltb_spec (Z.of_nat i) 64) as [Q|Q].
  - transitivity (Z.testbit ((u * 2 ^ 64 + v) / 2 ^ 64) (63 - Z.of_nat i)).
    + rewrite Z.div_add_l by lia. rewrite Z.div_small by lia. now rewrite Z.add_0_r.
    + rewrite Z.div_pow2_bits by lia. f_equal. lia.
  - transitivity (Z.testbit ((u * 2 ^ 64 + v) mod 2 ^ 64) (127 - Z.of_nat i)).
    + assert (M : (u * 2 ^ 64 + v) mod 2 ^ 64 = v).
      { rewrite (Z.add_comm (u * 2 ^ 64) v), Z_mod_plus_full. apply Z.mod_small. lia. }
      now rewrite M.
    + rewrite Z.mod_pow2_bits_low by lia. f_equal.
Qed.

Lemma ok6_bits : forall ip, bytes_ok ip = true -> length ip = 16%nat -> ok6 (bits6 ip).
Proof.
  intros ip O L. unfold bits6. split; cbn [fst snd]; rewrite be_val.
  - pose proof (val_bound (firstn 8 ip) (bytes_ok_firstn 8 ip O)) as V. rewrite firstn_length, L in V. exact V.
  - pose proof (val_bound (skipn 8 ip) (bytes_ok_skipn 8 ip O)) as V. rewrite skipn_length, L in V. exact V.
Qed.

Lemma bits6_string : forall ip p, bytes_ok ip = true -> length ip = 16%nat -> 0 <= p <= 128 ->
  wbits _ bit6 (bits6 ip) p = bit_string 128 (addr_val ip) p.
Proof.
  intros ip p O L P. rewrite word6_string by (auto; now apply ok6_bits). f_equal. unfold bits6. cbn [fst snd].
  rewrite (be_val (firstn 8 ip)), (be_val (skipn 8 ip)), !addr_val_bval. rewrite <- (firstn_skipn 8 ip) at 3.
  rewrite bval_app. f_equal. f_equal. rewrite skipn_length, L. reflexivity.
Qed.

Lemma ok4_ip : forall ip p, plain_addr ip -> length ip = 4%nat -> 0 <= p <= addr_bits ip ->
  a_ok Z 32 ok4 (mkPA (be ip) p).
Proof.
  intros ip p (O & _) L P. split; cbn.
  - pose proof (val_bound ip O) as V. rewrite L in V. exact V.
  - unfold addr_bits in P. rewrite L in P. lia.
Qed.
Lemma ok6_ip : forall ip p, plain_addr ip -> length ip = 16%nat -> 0 <= p <= addr_bits ip ->
  a_ok (Z * Z) 128 ok6 (mkPA (bits6 ip) p).
Proof.
  intros ip p (O & _) L P. split; cbn; [now apply ok6_bits|].
  unfold addr_bits in P. rewrite L in P. lia.
Qed.

(** [b] is one of the prefixes of [a]. *)
Definition prefixb (b a : list bool) : bool := Nat.eqb (lcp b a) (length b).

Lemma nth_map_seq : forall {A} (f : nat -> A) n s k, (k < n)%nat -> nth_error (map f (seq s n)) k = Some (f (s + k)%nat).
Proof.
  induction n as [|n IH]; intros s k K; [lia|]. destruct k as [|k]; cbn [seq map nth_error].
  - now rewrite Nat.add_0_r.
  - rewrite IH by lia. do 2 f_equal. lia.
Qed.

Lemma bit_string_prefix : forall w v p v' p', 0 <= p -> 0 <= p' ->
  (prefixb (bit_string w v p) (bit_string w v' p') = true <-> p <= p' /\ leading_equal w p v v').
Proof.
  intros w v p v' p' P P'. unfold prefixb. rewrite Nat.eqb_eq, lcp_all. unfold bit_string, leading_equal. split.
  - intros [r E].
    assert (L : (Z.to_nat p <= Z.to_nat p')%nat).
    { apply (f_equal (@length bool)) in E. rewrite app_length, !map_length, !seq_length in E. lia. }
    split; [lia|]. intros i I.
    apply (f_equal (fun l => nth_error l (Z.to_nat i))) in E.
    rewrite nth_error_app1 in E by (rewrite map_length, seq_length; lia).
    rewrite !nth_map_seq in E by lia. injection E as E. cbn [plus] in E. rewrite Z2Nat.id in E by lia. now symmetry.
  - intros [L H]. replace (Z.to_nat p') with (Z.to_nat p + (Z.to_nat p' - Z.to_nat p))%nat by lia.
    rewrite seq_app, map_app. eexists. f_equal. symmetry. apply map_ext_in. intros j J. apply in_seq in J. apply H. lia.
Qed.

(** ** Lookup results as a selection *)

Lemma filter_or : forall {A} (f g : A -> bool) l, (forall x, In x l -> f x = true -> g x = false) ->
  Permutation (filter f l ++ filter g l) (filter (fun x => f x || g x) l).
Proof.
  induction l as [|x l IH]; intros D; [reflexivity|]. cbn.
  assert (D' : forall y, In y l -> f y = true -> g y = false) by (intros y I; apply D; now right).
  destruct (f x) eqn:F; cbn [orb].
  - rewrite (D x (or_introl eq_refl) F). cbn. apply perm_skip. now apply IH.
  - destruct (g x); [|now apply IH]. rewrite <- Permutation_middle. apply perm_skip. now apply IH.
Qed.

Lemma flat_filter : forall {A} (f : nat -> A -> bool) ks l, NoDup ks ->
  (forall x k k', In x l -> f k x = true -> f k' x = true -> k = k') ->
  Permutation (flat_map (fun k => filter (f k) l) ks) (filter (fun x => existsb (fun k => f k x) ks) l).
Proof.
  induction ks as [|k ks IH]; intros l N U.
  - cbn. replace (filter (fun _ => false) l) with (@nil A); [reflexivity|]. induction l; [reflexivity | apply IHl].
    intros; eapply U; eauto; now right.
  - inversion N as [|? ? Nk Nks]; subst. cbn [flat_map existsb]. rewrite IH by assumption.
    apply filter_or. intros x I F. destruct (existsb _ ks) eqn:E; [|reflexivity]. exfalso.
    apply existsb_exists in E. destruct E as (k' & I' & F'). rewrite (U x k k' I F F') in Nk. auto.
Qed.

Lemma map_flat_map : forall {A B C} (g : B -> C) (f : A -> list B) l, map g (flat_map f l) = flat_map (fun x => map g (f x)) l.
Proof. induction l as [|x l IH]; [reflexivity|]. cbn. now rewrite map_app, IH. Qed.

Lemma lookup_selects : forall (W : Type) bit (es : list (paddr W * Z)) A,
  Permutation (flat_map (fun k => at_bits W bit es (firstn k A)) (seq 0 (S (length A))))
              (map snd (filter (fun e => prefixb (abits W bit (fst e)) A) es)).
Proof.
  intros W bit es A. unfold at_bits.
  rewrite <- (map_flat_map snd (fun k => filter (fun e => bits_eqb (abits W bit (fst e)) (firstn k A)) es)). apply Permutation_map.
  set (f := fun k (e : paddr W * Z) => bits_eqb (abits W bit (fst e)) (firstn k A)).
  assert (L : forall k, In k (seq 0 (S (length A))) -> length (firstn k A) = k).
  { intros k I. apply in_seq in I. rewrite firstn_length. lia. }
  change (fun k => filter (fun e => bits_eqb (abits W bit (fst e)) (firstn k A)) es) with (fun k => filter (f k) es).
  transitivity (flat_map (fun k => filter (fun e => f k e && Nat.eqb k (length (abits W bit (fst e)))) es) (seq 0 (S (length A)))).
  { apply Permutation_refl'. apply (flat_map_ext_in (fun k => filter (f k) es) (fun k => filter (fun e => f k e && Nat.eqb k (length (abits W bit (fst e)))) es) (seq 0 (S (length A)))). intros k I. apply filter_ext. intros e. unfold f.
    destruct (bits_eqb _ _) eqn:E; [|reflexivity]. apply bits_eqb_eq in E. rewrite E, L by exact I. now rewrite Nat.eqb_refl. }
  rewrite (flat_filter (fun k e => f k e && Nat.eqb k (length (abits W bit (fst e))))).
  - apply Permutation_refl'. apply filter_ext. intros e. unfold prefixb.
    destruct (Nat.eqb (lcp (abits W bit (fst e)) A) (length (abits W bit (fst e)))) eqn:E.
    + apply Nat.eqb_eq, lcp_all in E. destruct E as [r ->]. apply existsb_exists.
      exists (length (abits W bit (fst e))). split; [apply in_seq; rewrite app_length; lia|].
      unfold f. rewrite Nat.eqb_refl, firstn_app, Nat.sub_diag, firstn_all. cbn [firstn]. rewrite app_nil_r.
      now rewrite (proj2 (bits_eqb_eq _ _) eq_refl).
    + destruct (existsb _ _) eqn:X; [|reflexivity]. exfalso. apply existsb_exists in X. destruct X as (k & _ & X).
      apply andb_prop in X. destruct X as [X _]. unfold f in X. apply bits_eqb_eq in X. apply Nat.eqb_neq in E. apply E.
      apply lcp_all. exists (skipn k A). rewrite X. symmetry. apply firstn_skipn.
  - apply seq_NoDup.
  - intros e k k' _ H H'. apply andb_prop in H, H'. destruct H as [_ H], H' as [_ H']. apply Nat.eqb_eq in H, H'. congruence.
Qed.

(** ** Insertion of the payloads *)

Fixpoint entries4 (i : Z) (l : list oroa) : list (paddr Z * Z) :=
  match l with
  | [] => []
  | r :: l' => match parse_from_ipaddr (o_prefix r) with P4 a => (a, i) :: entries4 (i + 1) l' | _ => entries4 (i + 1) l' end
  end.
Fixpoint entries6 (i : Z) (l : list oroa) : list (paddr (Z * Z) * Z) :=
  match l with
  | [] => []
  | r :: l' => match parse_from_ipaddr (o_prefix r) with P6 a => (a, i) :: entries6 (i + 1) l' | _ => entries6 (i + 1) l' end
  end.

Lemma insert_all_adds : forall l i t4 t6 u4 u6,
  adds4 t4 (entries4 i l) = TOk u4 -> adds6 t6 (entries6 i l) = TOk u6 -> insert_all i l t4 t6 = TOk (u4, u6).
Proof.
  induction l as [|r l IH]; intros i t4 t6 u4 u6 H4 H6.
  - cbn in H4, H6. injection H4 as <-. injection H6 as <-. reflexivity.
  - cbn [entries4 entries6 insert_all] in *. destruct (parse_from_ipaddr (o_prefix r)) as [a|a|].
    + change (adds4 t4 ((a, i) :: entries4 (i + 1) l)) with (tbind (add4 t4 a i) (fun t => adds4 t (entries4 (i + 1) l))) in H4.
      destruct (add4 t4 a i) as [t| | |]; cbn [tbind] in *; try discriminate. now apply IH.
    + change (adds6 t6 ((a, i) :: entries6 (i + 1) l)) with (tbind (add6 t6 a i) (fun t => adds6 t (entries6 (i + 1) l))) in H6.
      destruct (add6 t6 a i) as [t| | |]; cbn [tbind] in *; try discriminate. now apply IH.
    + now apply IH.
Qed.

Lemma entries4_length : forall l i, (length (entries4 i l) <= length l)%nat.
Proof. induction l as [|r l IH]; intros i; cbn; [lia|]. specialize (IH (i + 1)). destruct (parse_from_ipaddr _); cbn; lia. Qed.
Lemma entries6_length : forall l i, (length (entries6 i l) <= length l)%nat.
Proof. induction l as [|r l IH]; intros i; cbn; [lia|]. specialize (IH (i + 1)). destruct (parse_from_ipaddr _); cbn; lia. Qed.

Lemma entries4_in : forall l i e, In e (entries4 i l) -> i <= snd e /\ exists r, In r l /\ parse_from_ipaddr (o_prefix r) = P4 (fst e).
Proof.
  induction l as [|r l IH]; intros i e I; [destruct I|]. cbn [entries4] in I.
  assert (C : In e (entries4 (i + 1) l) -> i <= snd e /\ exists r', In r' (r :: l) /\ parse_from_ipaddr (o_prefix r') = P4 (fst e)).
  { intros J. destruct (IH _ _ J) as (H & r' & I' & E'). split; [lia|]. exists r'. split; [now right | exact E']. }
  destruct (parse_from_ipaddr (o_prefix r)) as [a|a|] eqn:E; auto.
  destruct I as [<-|I]; auto. cbn. split; [lia|]. exists r. split; [now left | exact E].
Qed.
Lemma entries6_in : forall l i e, In e (entries6 i l) -> i <= snd e /\ exists r, In r l /\ parse_from_ipaddr (o_prefix r) = P6 (fst e).
Proof.
  induction l as [|r l IH]; intros i e I; [destruct I|]. cbn [entries6] in I.
  assert (C : In e (entries6 (i + 1) l) -> i <= snd e /\ exists r', In r' (r :: l) /\ parse_from_ipaddr (o_prefix r') = P6 (fst e)).
  { intros J. destruct (IH _ _ J) as (H & r' & I' & E'). split; [lia|]. exists r'. split; [now right | exact E']. }
  destruct (parse_from_ipaddr (o_prefix r)) as [a|a|] eqn:E; auto.
  destruct I as [<-|I]; auto. cbn. split; [lia|]. exists r. split; [now left | exact E].
Qed.

Definition at_index (l : list oroa) (z : Z) : option oroa := nth_error l (Z.to_nat z).

Lemma entries4_pick : forall (g : paddr Z -> bool) l pre,
  map (at_index (pre ++ l)) (map snd (filter (fun e => g (fst e)) (entries4 (Z.of_nat (length pre)) l))) =
  map Some (filter (fun r => match parse_from_ipaddr (o_prefix r) with P4 a => g a | _ => false end) l).
Proof.
  induction l as [|r l IH]; intros pre; [reflexivity|]. cbn [entries4 filter].
  specialize (IH (pre ++ [r])). rewrite <- app_assoc in IH. cbn [app] in IH.
  replace (Z.of_nat (length (pre ++ [r]))) with (Z.of_nat (length pre) + 1) in IH by (rewrite app_length; cbn; lia).
  destruct (parse_from_ipaddr (o_prefix r)) as [a|a|]; auto.
  cbn [filter fst]. destruct (g a); auto. cbn [map]. rewrite IH. f_equal.
  unfold at_index. cbn [snd]. rewrite Nat2Z.id, nth_error_app2, Nat.sub_diag by lia. reflexivity.
Qed.
Lemma entries6_pick : forall (g : paddr (Z * Z) -> bool) l pre,
  map (at_index (pre ++ l)) (map snd (filter (fun e => g (fst e)) (entries6 (Z.of_nat (length pre)) l))) =
  map Some (filter (fun r => match parse_from_ipaddr (o_prefix r) with P6 a => g a | _ => false end) l).
Proof.
  induction l as [|r l IH]; intros pre; [reflexivity|]. cbn [entries6 filter].
  specialize (IH (pre ++ [r])). rewrite <- app_assoc in IH. cbn [app] in IH.
  replace (Z.of_nat (length (pre ++ [r]))) with (Z.of_nat (length pre) + 1) in IH by (rewrite app_length; cbn; lia).
  destruct (parse_from_ipaddr (o_prefix r)) as [a|a|]; auto.
  cbn [filter fst]. destruct (g a); auto. cbn [map]. rewrite IH. f_equal.
  unfold at_index. cbn [snd]. rewrite Nat2Z.id, nth_error_app2, Nat.sub_diag by lia. reflexivity.
Qed.

(** ** The filter *)

Definition hits (rt : oroute) (mask : Z) (r : oroa) : bool := (rt_asn rt =? o_asn r) && (mask <=? o_maxlen r).
Definition judge (rt : oroute) (mask : Z) (st : vstate) (r : oroa) : vstate :=
  match st with Valid => Valid | _ => if hits rt mask r then Valid else Invalid end.

Lemma filter_all_fold : forall vrp rt mask L M st acc, map (at_index vrp) L = map Some M -> (forall z, In z L -> 0 <= z) ->
  filter_all vrp rt mask (st, acc) L = TOk (fold_left (judge rt mask) M st, acc ++ M).
Proof.
  induction L as [|z L IH]; intros [|r M] st acc E P; try discriminate.
  - cbn. now rewrite app_nil_r.
  - injection E as E0 E. cbn [filter_all]. unfold ov_filter.
    rewrite (proj2 (Z.ltb_ge z 0)) by (apply P; now left). unfold at_index in E0. rewrite E0. cbn [tbind fst snd fold_left].
    rewrite (IH M); [|exact E | intros y I; apply P; now right].
    rewrite <- app_assoc. unfold judge at 2, hits. destruct st; reflexivity.
Qed.

Lemma judge_fold : forall rt mask M st, fold_left (judge rt mask) M st =
  match st with
  | Valid => Valid
  | _ => if existsb (hits rt mask) M then Valid else match M with [] => st | _ => Invalid end
  end.
Proof.
  induction M as [|r M IH]; intros st; [now destruct st|]. cbn [fold_left existsb]. rewrite IH.
  destruct st; cbn [judge]; try reflexivity; destruct (hits rt mask r); cbn [orb]; try reflexivity;
    destruct (existsb (hits rt mask) M); try reflexivity; now destruct M.
Qed.

(** ** Validation *)

Definition family_sel (rt : oroute) (f : oroa -> bool) (l : list oroa) : Prop :=
  forall v, In v l -> (f v = true <-> covers v rt).

Lemma prefix_is_fun : forall n ip p ip' p', prefix_is n ip p -> prefix_is n ip' p' -> ip = ip' /\ p = p'.
Proof.
  intros n ip p ip' p' (A & P & ->) (A' & P' & E). injection E as E1 E2. subst ip'. split; [reflexivity|].
  assert (L : (length ip = 4 \/ length ip = 16)%nat) by apply A. unfold addr_bits in *.
  apply (f_equal mask_size) in E2. rewrite !mask_size_cidr in E2 by auto. now injection E2.
Qed.

Lemma sel4 : forall rt ip' p' l, (forall v, In v l -> proper (o_prefix v)) ->
  prefix_is (rt_prefix rt) ip' p' -> length ip' = 4%nat ->
  family_sel rt (fun v => match parse_from_ipaddr (o_prefix v) with
                          | P4 a => prefixb (abits Z bit4 a) (abits Z bit4 (mkPA (be ip') p')) | _ => false end) l.
Proof.
  intros rt ip' p' l Pr R L4 v I. destruct (Pr v I) as [N|(ip & p & V)].
  - rewrite N. cbn [parse_from_ipaddr]. split; [discriminate|].
    intros (ip & p & ? & ? & (_ & _ & V) & _). congruence.
  - rewrite (parse_prefix _ _ _ V). pose proof V as (Av & Pv & _). pose proof R as (Ar & Rv & _).
    assert (L : (length ip = 4 \/ length ip = 16)%nat) by apply Av.
    unfold addr_bits in Pv, Rv. rewrite L4 in Rv.
    destruct L as [L|L]; rewrite L in *; cbn [Nat.eqb].
    + unfold abits. cbn [a_word a_len]. rewrite !bits4_string, bit_string_prefix by lia. rewrite !be_val. split.
      * intros [H1 H2]. exists ip, p, ip', p'. repeat split; auto; try apply V; try apply R; try congruence.
        unfold addr_bits. rewrite L. exact H2.
      * intros (a & q & b & q' & V' & R' & _ & H1 & H2).
        destruct (prefix_is_fun _ _ _ _ _ V V') as [<- <-]. destruct (prefix_is_fun _ _ _ _ _ R R') as [<- <-].
        unfold addr_bits in H2. rewrite L in H2. split; assumption.
    + split; [discriminate|]. intros (a & q & b & q' & V' & R' & LL & _).
      destruct (prefix_is_fun _ _ _ _ _ V V') as [<- <-]. destruct (prefix_is_fun _ _ _ _ _ R R') as [<- <-]. congruence.
Qed.
Lemma sel6 : forall rt ip' p' l, (forall v, In v l -> proper (o_prefix v)) ->
  prefix_is (rt_prefix rt) ip' p' -> length ip' = 16%nat ->
  family_sel rt (fun v => match parse_from_ipaddr (o_prefix v) with
                          | P6 a => prefixb (abits (Z * Z) bit6 a) (abits (Z * Z) bit6 (mkPA (bits6 ip') p')) | _ => false end) l.
Proof.
  intros rt ip' p' l Pr R L4 v I. destruct (Pr v I) as [N|(ip & p & V)].
  - rewrite N. cbn [parse_from_ipaddr]. split; [discriminate|].
    intros (ip & p & ? & ? & (_ & _ & V) & _). congruence.
  - rewrite (parse_prefix _ _ _ V). pose proof V as (Av & Pv & _). pose proof R as (Ar & Rv & _).
    assert (L : (length ip = 4 \/ length ip = 16)%nat) by apply Av.
    unfold addr_bits in Pv, Rv. rewrite L4 in Rv.
    destruct L as [L|L]; rewrite L in *; cbn [Nat.eqb].
    + split; [discriminate|]. intros (a & q & b & q' & V' & R' & LL & _).
      destruct (prefix_is_fun _ _ _ _ _ V V') as [<- <-]. destruct (prefix_is_fun _ _ _ _ _ R R') as [<- <-]. congruence.
    + unfold abits. cbn [a_word a_len]. destruct Av as (Ov & _), Ar as (Or & _).
      rewrite !bits6_string, bit_string_prefix by (auto; lia). split.
      * intros [H1 H2]. exists ip, p, ip', p'. repeat split; auto; try apply V; try apply R; try congruence.
        unfold addr_bits. rewrite L. exact H2.
      * intros (a & q & b & q' & V' & R' & _ & H1 & H2).
        destruct (prefix_is_fun _ _ _ _ _ V V') as [<- <-]. destruct (prefix_is_fun _ _ _ _ _ R R') as [<- <-].
        unfold addr_bits in H2. rewrite L in H2. split; assumption.
Qed.

Lemma state_rfc : forall l rt ip' p' f M, prefix_is (rt_prefix rt) ip' p' -> family_sel rt f l -> Permutation M (filter f l) ->
  rfc6811 l rt (fold_left (judge rt p') M NotFound).
Proof.
  intros l rt ip' p' f M R S P. rewrite judge_fold.
  assert (In_M : forall v, In v M <-> In v l /\ covers v rt).
  { intros v. split.
    - intros I. apply (Permutation_in _ P) in I. apply filter_In in I. destruct I as [I F]. split; [exact I | now apply S].
    - intros [I C]. apply (Permutation_in _ (Permutation_sym P)). apply filter_In. split; [exact I | now apply S]. }
  assert (Hits : forall v, In v M -> (hits rt p' v = true <-> matches v rt)).
  { intros v I. apply In_M in I. destruct I as [I C]. unfold hits. rewrite andb_true_iff, Z.eqb_eq, Z.leb_le. split.
    - intros [H1 H2]. split; [exact C|]. split; [|exact H1]. now exists ip', p'.
    - intros (_ & (a & q & R' & H) & E). destruct (prefix_is_fun _ _ _ _ _ R R') as [<- <-]. tauto. }
  destruct (existsb (hits rt p') M) eqn:E.
  - apply existsb_exists in E. destruct E as (v & I & H). exists v. split; [now apply In_M | now apply Hits].
  - assert (No : forall v, In v l -> ~ matches v rt).
    { intros v I Mt. assert (IM : In v M) by (apply In_M; split; [exact I | apply Mt]).
      assert (T : existsb (hits rt p') M = true) by (apply existsb_exists; exists v; split; [exact IM | now apply Hits]).
      congruence. }
    destruct M as [|r M]; cbn [rfc6811].
    + intros v I C. assert (X : In v []) by (apply In_M; auto). exact X.
    + split; [|exact No]. exists r. apply In_M. now left.
Qed.

Theorem ov_rfc6811 : forall l, (forall v, In v l -> proper (o_prefix v)) -> 2 + 2 * Z.of_nat (length l) < 2 ^ 32 ->
  exists ov, new_ov l = TOk ov /\
    forall rt ip p, prefix_is (rt_prefix rt) ip p ->
      exists m st, ov_validate ov rt = TOk (m, st, false) /\ rfc6811 l rt st /\ all_covering l rt m.
Proof.
  intros l Pr B.
  assert (K4 : forall e, In e (entries4 0 l) -> a_ok Z 32 ok4 (fst e)).
  { intros e I. destruct (entries4_in _ _ _ I) as (_ & r & Ir & E). destruct (Pr r Ir) as [N|(ip & p & V)].
    - rewrite N in E. discriminate.
    - rewrite (parse_prefix _ _ _ V) in E. pose proof V as (A & P & _).
      destruct (Nat.eqb_spec (length ip) 4); [|discriminate]. injection E as <-. now apply ok4_ip. }
  assert (K6 : forall e, In e (entries6 0 l) -> a_ok (Z * Z) 128 ok6 (fst e)).
  { intros e I. destruct (entries6_in _ _ _ I) as (_ & r & Ir & E). destruct (Pr r Ir) as [N|(ip & p & V)].
    - rewrite N in E. discriminate.
    - rewrite (parse_prefix _ _ _ V) in E. pose proof V as (A & P & _).
      destruct (Nat.eqb_spec (length ip) 4); [discriminate|]. injection E as <-. apply ok6_ip; auto.
      destruct A as (_ & [L|L] & _); [congruence | exact L]. }
  pose proof (entries4_length l 0). pose proof (entries6_length l 0).
  destruct (find4_after_adds (entries4 0 l) K4) as (t4 & E4 & F4); [lia|].
  destruct (find6_after_adds (entries6 0 l) K6) as (t6 & E6 & F6); [lia|].
  exists (mkOV l t4 t6). unfold new_ov. rewrite (insert_all_adds _ _ _ _ _ _ E4 E6). cbn [tbind].
  split; [reflexivity|]. intros rt ip p R. unfold ov_validate. rewrite (parse_prefix _ _ _ R).
  pose proof R as (A & P & En). rewrite En. cbn [nmask].
  assert (L : (length ip = 4 \/ length ip = 16)%nat) by apply A.
  replace (mask_size (cidr_mask p (addr_bits ip))) with (p, 8 * Z.of_nat (length ip)) by (symmetry; apply mask_size_cidr; auto).
  cbn [fst ov_t4 ov_t6 ov_vrp].
  assert (Fin : forall Ls f, (forall z, In z Ls -> 0 <= z) ->
    Permutation (map (at_index l) Ls) (map Some (filter f l)) -> family_sel rt f l ->
    exists m st, tbind (filter_all l rt p (NotFound, []) Ls) (fun '(st, m) => TOk (m, st, false)) = TOk (m, st, false) /\
      rfc6811 l rt st /\ all_covering l rt m).
  { intros Ls f Pos Pm S. destruct (Permutation_map_inv _ _ Pm) as (M & EM & PM).
    rewrite (filter_all_fold l rt p Ls M NotFound []) by assumption. cbn [tbind app].
    eexists _, _. split; [reflexivity|]. apply Permutation_sym in PM. split.
    - now apply (state_rfc l rt ip p f M).
    - exists f. split; assumption. }
  destruct L as [L|L]; rewrite L; cbn [Nat.eqb].
  - rewrite (F4 _ (ok4_ip ip p A L P)). cbn [tbind].
    eapply Fin; [| |apply (sel4 rt ip p l Pr R L)].
    + intros z I. apply (Permutation_in _ (lookup_selects Z bit4 _ _)) in I. apply in_map_iff in I.
      destruct I as (e & <- & I). apply filter_In in I. destruct I as [I _]. destruct (entries4_in _ _ _ I). lia.
    + etransitivity; [apply Permutation_map, lookup_selects|]. apply Permutation_refl'.
      apply (entries4_pick (fun a => prefixb (abits Z bit4 a) _) l []).
  - rewrite (F6 _ (ok6_ip ip p A L P)). cbn [tbind].
    eapply Fin; [| |apply (sel6 rt ip p l Pr R L)].
    + intros z I. apply (Permutation_in _ (lookup_selects (Z * Z) bit6 _ _)) in I. apply in_map_iff in I.
      destruct I as (e & <- & I). apply filter_In in I. destruct I as [I _]. destruct (entries6_in _ _ _ I). lia.
    + etransitivity; [apply Permutation_map, lookup_selects|]. apply Permutation_refl'.
      apply (entries6_pick (fun a => prefixb (abits (Z * Z) bit6 a) _) l []).
Qed.

(** ** The store *)

Lemma inserted4 : forall l t, inserted add4 t l = adds4 t l.
Proof. induction l as [|[a x] l IH]; intros t; [reflexivity|]. cbn [inserted]. unfold adds4. cbn [add_all].
  change (tree_add Z match4 shl4 left4 t a x) with (add4 t a x). destruct (add4 t a x); try reflexivity. apply IH. Qed.
Lemma inserted6 : forall l t, inserted add6 t l = adds6 t l.
Proof. induction l as [|[a x] l IH]; intros t; [reflexivity|]. cbn [inserted]. unfold adds6. cbn [add_all].
  change (tree_add (Z * Z) match6 shl6 left6 t a x) with (add6 t a x). destruct (add6 t a x); try reflexivity. apply IH. Qed.

Theorem store4 : forall l, (forall e, In e l -> fits4 (fst e)) -> 2 + 2 * Z.of_nat (length l) < 2 ^ 32 ->
  exists t, inserted add4 new4 l = TOk t /\ forall a, fits4 a -> find4 t a = TOk (lookup string4 l (string4 a)).
Proof.
  intros l K B. destruct (find4_after_adds l K B) as (t & E & F). exists t. split; [now rewrite inserted4|].
  intros a Ka. rewrite (F a Ka). reflexivity.
Qed.
Theorem store6 : forall l, (forall e, In e l -> fits6 (fst e)) -> 2 + 2 * Z.of_nat (length l) < 2 ^ 32 ->
  exists t, inserted add6 new6 l = TOk t /\ forall a, fits6 a -> find6 t a = TOk (lookup string6 l (string6 a)).
Proof.
  intros l K B. destruct (find6_after_adds l K B) as (t & E & F). exists t. split; [now rewrite inserted6|].
  intros a Ka. rewrite (F a Ka). f_equal. unfold lookup, string6, abits. rewrite word6_string by apply Ka.
  apply flat_map_ext_in. intros k _. unfold at_bits. f_equal. apply filter_ext_in. intros e I.
  unfold abits. now rewrite word6_string by apply (K e I).
Qed.
