(** What Marshal writes is DER, and SET OF elements are sorted. *)
From Coq Require Import Lia Bool ZifyBool ZifyNat Permutation.
From Verif.Model Require Import Base Str NetIP CertRes Ber Asn1 GoTime Der.
From Verif.Spec Require Import Addr BerSpec.
From Verif.Proofs Require Import NetIPProofs BerProofs OutputProofs DerPrim DerProofs.
Ltac Zify.zify_post_hook ::= Z.div_mod_to_equations.

(** ** Octets *)
Lemma ok_cons : forall x l, 0 <= x < 256 -> bytes_ok l = true -> bytes_ok (x :: l) = true.
Proof. intros x l H O. cbn [bytes_ok forallb]. fold (bytes_ok l). rewrite O. unfold byte_ok. lia. Qed.
Lemma ok_app : forall a b, bytes_ok a = true -> bytes_ok b = true -> bytes_ok (a ++ b) = true.
Proof. intros a b H1 H2. apply bytes_ok_app. auto. Qed.

Lemma be_bytes_ok : forall k n, bytes_ok (be_bytes k n) = true.
Proof. induction k; intros n; [reflexivity|]. cbn [be_bytes]. apply ok_cons; [apply Z.mod_pos_bound; lia|apply IHk]. Qed.
Lemma put_int_bytes : forall n, bytes_ok (put_int n) = true.
Proof. intros. apply be_bytes_ok. Qed.
Lemma digits_ok : forall k n, bytes_ok (base128_digits k n) = true.
Proof.
  induction k; intros n; [reflexivity|]. cbn [base128_digits]. apply ok_cons; [|apply IHk].
  pose proof (Z.mod_pos_bound (n / 128 ^ Z.of_nat k) 128 ltac:(lia)). destruct (Nat.eqb k 0); lia.
Qed.
Lemma base128_ok : forall n, bytes_ok (put_base128 n) = true.
Proof. intros. apply digits_ok. Qed.
Lemma put_oid_bytes : forall l b, put_oid l = Some b -> bytes_ok b = true.
Proof.
  intros [|a [|c l]] b H; try discriminate. unfold put_oid in H. destruct (_ || _); [discriminate|]. injection H as <-.
  apply ok_app; [apply base128_ok|]. induction l as [|x l IH]; [reflexivity|]. cbn [flat_map]. apply ok_app; [apply base128_ok|exact IH].
Qed.
Lemma two_ok : forall v, bytes_ok (two_digits v) = true.
Proof. intros v. unfold two_digits. apply ok_cons; [lia|]. apply ok_cons; [lia|reflexivity]. Qed.
Lemma four_ok : forall v, bytes_ok (four_digits v) = true.
Proof. intros v. unfold four_digits. repeat (apply ok_cons; [lia|]). reflexivity. Qed.
Lemma common_ok : forall t, bytes_ok (put_common t) = true.
Proof.
  intros t. unfold put_common. repeat (apply ok_app; [apply two_ok|]).
  destruct (_ =? 0); [reflexivity|]. apply ok_cons; [destruct (0 <? _); lia|]. apply ok_app; apply two_ok.
Qed.
Lemma some_eq : forall A (a b : A), Some a = Some b -> a = b.
Proof. congruence. Qed.
Lemma put_time_bytes : forall t b, put_utc t = Some b \/ put_generalized t = Some b -> bytes_ok b = true.
Proof.
  intros t b [H|H]; [unfold put_utc in H|unfold put_generalized in H].
  - destruct (_ && _); [apply some_eq in H; subst b; apply ok_app; [apply two_ok|apply common_ok]|].
    destruct (_ && _); [|discriminate]. apply some_eq in H; subst b; apply ok_app; [apply two_ok|apply common_ok].
  - destruct (_ || _); [discriminate|]. apply some_eq in H; subst b. apply ok_app; [apply four_ok|apply common_ok].
Qed.

(** ** Sorting *)
Lemma insert_perm : forall x l, Permutation (x :: l) (insert_bytes x l).
Proof.
  induction l as [|y l IH]; [reflexivity|]. cbn [insert_bytes]. destruct (_ <? 0); [|reflexivity].
  rewrite perm_swap. now constructor.
Qed.
Lemma sort_perm : forall l, Permutation l (sort_bytes l).
Proof.
  induction l as [|x l IH]; [reflexivity|]. unfold sort_bytes. cbn [fold_right]. rewrite <- insert_perm. now constructor.
Qed.
Fixpoint in_order (l : list bytes) : Prop :=
  match l with
  | x :: ((y :: _) as r) => 0 <= bytes_compare y x /\ in_order r
  | _ => True
  end.
Lemma insert_order : forall x l, in_order l -> in_order (insert_bytes x l).
Proof.
  induction l as [|y l IH]; intros H; [exact I|]. cbn [insert_bytes].
  destruct (bytes_compare y x <? 0) eqn:E; [|split; [lia|exact H]].
  assert (Hl : in_order l) by (destruct l; [exact I|apply H]). specialize (IH Hl).
  destruct l as [|z l]; cbn [insert_bytes] in *.
  - split; [rewrite cmp_anti; lia|exact I].
  - destruct (bytes_compare z x <? 0); (split; [|exact IH]); [apply H|rewrite cmp_anti; lia].
Qed.
Lemma sort_order : forall l, in_order (sort_bytes l).
Proof. induction l as [|x l IH]; [exact I|]. now apply insert_order. Qed.
Lemma order_sort : forall l, in_order l -> sort_bytes l = l.
Proof.
  induction l as [|x l IH]; intros H; [reflexivity|]. unfold sort_bytes in *. cbn [fold_right].
  rewrite IH by (destruct l; [exact I|apply H]). destruct l as [|y l]; [reflexivity|]. cbn [insert_bytes].
  destruct H as [H _]. destruct (_ <? 0) eqn:E; [lia|reflexivity].
Qed.
Lemma sort_twice : forall l, sort_bytes (sort_bytes l) = sort_bytes l.
Proof. intros. apply order_sort, sort_order. Qed.

(** Two permutations of a list sort to the same list. *)
Lemma in_order_hd : forall l x, in_order (x :: l) -> forall y, In y l -> 0 <= bytes_compare y x.
Proof.
  induction l as [|z l IH]; intros x H y Hy; [contradiction|]. destruct H as [H1 H2].
  destruct Hy as [<-|Hy]; [exact H1|]. specialize (IH z H2 y Hy).
  rewrite cmp_anti. pose proof (cmp_anti y z). pose proof (cmp_anti z x).
  pose proof (cmp_trans x z y). lia.
Qed.
Lemma order_unique : forall a b, in_order a -> in_order b -> Permutation a b -> a = b.
Proof.
  induction a as [|x a IH]; intros b Ha Hb P; [apply Permutation_nil in P; now subst|].
  destruct b as [|y b]; [symmetry in P; apply Permutation_nil in P; discriminate|].
  assert (E : x = y).
  { assert (Hx : In x (y :: b)) by (eapply Permutation_in; [exact P|now left]).
    assert (Hy : In y (x :: a)) by (eapply Permutation_in; [symmetry; exact P|now left]).
    destruct Hx as [<-|Hx]; [reflexivity|]. destruct Hy as [->|Hy]; [reflexivity|].
    pose proof (in_order_hd b y Hb x Hx). pose proof (in_order_hd a x Ha y Hy).
    apply cmp_eq. pose proof (cmp_anti x y). lia. }
  subst y. f_equal. apply IH.
  - destruct a; [exact I|apply Ha].
  - destruct b; [exact I|apply Hb].
  - now apply Permutation_cons_inv in P.
Qed.
Lemma sort_permuted : forall a b, Permutation a b -> sort_bytes a = sort_bytes b.
Proof.
  intros a b P. apply order_unique; try apply sort_order. rewrite <- (sort_perm a), <- (sort_perm b). exact P.
Qed.

(** ** DER *)
Lemma tag_byte : forall c cons tag, 0 <= c < 4 -> 0 <= tag < 31 ->
  tag_octets cons [c * 64 + (if cons then 32 else 0) + tag].
Proof. intros c cons tag Hc Ht. apply tag_low; destruct cons; lia. Qed.

Lemma put_tlv_low : forall c cons tag b, 0 <= tag < 31 ->
  put_tlv c cons tag b = [c * 64 + (if cons then 32 else 0) + tag] ++ encode_length (Z.of_nat (length b)) ++ b.
Proof.
  intros c cons tag b H. unfold put_tlv, put_header. destruct (31 <=? tag) eqn:E; [lia|]. now rewrite <- app_assoc.
Qed.

Lemma tlv_prim : forall c tag b, 0 <= c < 4 -> 0 <= tag < 31 -> bytes_ok b = true -> Z.of_nat (length b) < 2 ^ 31 ->
  exists t, der t (put_tlv c false tag b).
Proof.
  intros c tag b Hc Ht O L. rewrite put_tlv_low by exact Ht. eexists. apply der_prim; [now apply tag_byte|exact O|].
  apply encode_length_der. lia.
Qed.
Lemma tlv_cons : forall c tag ts b, 0 <= c < 4 -> 0 <= tag < 31 -> ders ts b -> Z.of_nat (length b) < 2 ^ 31 ->
  exists t, der t (put_tlv c true tag b).
Proof.
  intros c tag ts b Hc Ht O L. rewrite put_tlv_low by exact Ht. eexists. apply der_cons; [now apply tag_byte|exact O|].
  apply encode_length_der. lia.
Qed.

(** Values all of whose octets are octets; raw values are DER. *)
Fixpoint octs (v : govalue) : Prop :=
  match v with
  | VRaw r => exists t, der t (r_full r)
  | VBits b => bytes_ok (bs_bytes b) = true
  | VOctets b | VStr b => bytes_ok b = true
  | VStruct _ l | VSlice l => (fix all (l : list govalue) : Prop :=
                                 match l with [] => True | v :: l' => octs v /\ all l' end) l
  | _ => True
  end.
Lemma octs_list : forall l, (fix all (l : list govalue) : Prop :=
    match l with [] => True | v :: l' => octs v /\ all l' end) l <-> Forall octs l.
Proof.
  induction l as [|v l IH]; [split; auto|]. rewrite IH. split.
  - intros [A B]. now constructor.
  - intros H. inversion H; auto.
Qed.

Lemma ders_one : forall t b, der t b -> ders [t] b.
Proof. intros t b H. rewrite <- (app_nil_r b). constructor; [exact H|constructor]. Qed.
Lemma ders_app : forall t1 b1, ders t1 b1 -> forall t2 b2, ders t2 b2 -> ders (t1 ++ t2) (b1 ++ b2).
Proof.
  induction t1 as [|t ts IH]; intros b1 H t2 b2 H2; inversion H; subst; [exact H2|].
  cbn [app]. rewrite <- app_assoc. constructor; [assumption|]. now apply IH.
Qed.

Lemma ders_concat : forall bs, Forall (fun b => exists t, der t b) bs -> exists ts, ders ts (concat bs).
Proof.
  induction bs as [|b bs IH]; intros H; [exists []; constructor|]. inversion H as [|? ? (t & Ht) Hb]; subst.
  destruct (IH Hb) as (ts & Hts). exists (t :: ts). cbn [concat]. now constructor.
Qed.

Lemma wrap_der : forall t p tag b, params_ok t p -> 0 <= tag < 31 ->
  Z.of_nat (length (wrap p (is_cons t) tag b)) < 2 ^ 31 ->
  (if is_cons t then exists ts, ders ts b else bytes_ok b = true) ->
  exists tr, der tr (wrap p (is_cons t) tag b).
Proof.
  intros t p tag b (Hp & _) Ht L Hb.
  assert (X : forall c k, 0 <= c < 4 -> 0 <= k < 31 -> Z.of_nat (length (put_tlv c (is_cons t) k b)) < 2 ^ 31 ->
     exists tr, der tr (put_tlv c (is_cons t) k b)).
  { intros c k Hc Hk Lk. pose proof (put_tlv_length c (is_cons t) k b). destruct (is_cons t).
    - destruct Hb as (ts & Hts). apply (tlv_cons c k ts b); auto; lia.
    - apply tlv_prim; auto; lia. }
  unfold wrap in *. destruct (p_tag p) as [k|]; [|now apply X].
  destruct (p_explicit p); [|now apply X].
  pose proof (put_tlv_length 2 true k (put_tlv 0 (is_cons t) tag b)).
  destruct (X 0 tag ltac:(lia) Ht ltac:(lia)) as (tr & Htr).
  apply (tlv_cons 2 k [tr]); [lia|lia|now apply ders_one|lia].
Qed.

Lemma made_fields_der : forall fs l b,
  Forall (fun f => forall p v b, fits (snd f) p v -> octs v -> left_out p v = false ->
            make_field (snd f) p v = Some b -> Z.of_nat (length b) < 2 ^ 31 -> exists tr, der tr b) fs ->
  fits_fields fs l -> Forall octs l -> make_fields fs l = Some b -> Z.of_nat (length b) < 2 ^ 31 ->
  exists ts, ders ts b.
Proof.
  induction fs as [|[p t] fs IH]; intros [|v l] b Hr Hf Ho Hm Hl; cbn [fits_fields] in Hf; try contradiction.
  - injection Hm as <-. exists []. constructor.
  - destruct Hf as [Hv Hf]. cbn [make_fields] in Hm. destruct (make_field t p v) as [b1|] eqn:E1; [|discriminate].
    destruct (make_fields fs l) as [b2|] eqn:E2; [|discriminate]. injection Hm as <-. rewrite app_length in Hl.
    inversion Hr as [|? ? Hr1 Hr2]; subst. inversion Ho; subst.
    destruct (IH l b2 Hr2 Hf ltac:(assumption) E2 ltac:(lia)) as (ts & Hts).
    destruct (left_out p v) eqn:Lo.
    + rewrite make_field_eq, Lo in E1. injection E1 as <-. exists ts. exact Hts.
    + destruct (Hr1 p v b1 Hv ltac:(assumption) Lo E1 ltac:(lia)) as (tr & Htr). exists (tr :: ts). now constructor.
Qed.

Theorem made_der : forall t p v b, fits t p v -> octs v -> left_out p v = false -> make_field t p v = Some b ->
  Z.of_nat (length b) < 2 ^ 31 -> exists tr, der tr b.
Proof.
  induction t using gotype_rec2; intros p v b Hf Ho Lo Hm Hl.
  - destruct (match t with GRaw => true | _ => false end) eqn:R.
    { destruct t; try discriminate. destruct v as [r| | | | | | | | | |]; cbn [fits] in Hf; try (now destruct Hf).
      destruct Hf as [_ (Ne & _)]. rewrite make_field_eq, Lo in Hm. 
      assert (b = r_full r) by (injection Hm as <-; destruct (r_full r); congruence). subst b. exact Ho. }
    assert (Nr : t <> GRaw) by (intros ->; discriminate).
    destruct (fits_tag t p v Hf Nr) as (tag & Et). destruct (tag_wire t p v tag 0 Hf Nr Et) as [_ B].
    rewrite make_field_eq, Lo, Et in Hm.
    assert (X : exists body, make_body t p v = Some body /\ b = wrap p (is_cons t) tag body).
    { destruct t; try contradiction; try discriminate; destruct (make_body _ p v) as [body|];
        try discriminate; exists body; split; congruence. }
    destruct X as (body & Eb & ->).
    apply wrap_der; [destruct t; destruct Hf as [Hp _]; exact Hp|exact B|exact Hl|].
    destruct t; try contradiction; try discriminate; destruct v; cbn [fits] in Hf; destruct Hf as [_ F]; try contradiction;
      cbn [is_cons universal make_body octs] in *.
    + now apply put_oid_bytes in Eb.
    + injection Eb as <-. unfold put_bits. apply ok_cons; [lia|exact Ho].
    + apply (put_time_bytes t). destruct (use_generalized p t); auto.
    + destruct n as [n|]; [|contradiction]. injection Eb as <-. apply put_int_bytes.
    + injection Eb as <-. apply put_int_bytes.
    + injection Eb as <-. exact Ho.
    + unfold put_string in Eb.
      destruct (_ =? 22); [destruct (forallb _ _); [injection Eb as <-; exact Ho|discriminate]|].
      destruct (_ =? 19); [destruct (forallb _ _); [injection Eb as <-; exact Ho|discriminate]|].
      destruct (_ =? 18); [destruct (forallb _ _); [injection Eb as <-; exact Ho|discriminate]|].
      injection Eb as <-; exact Ho.
    + injection Eb as <-. destruct b; reflexivity.
  - destruct rc; [destruct v; destruct Hf as [_ F]; contradiction|].
    destruct v as [| | | | | | | |raw l| |]; try (destruct Hf as [_ F]; contradiction).
    destruct raw as [|x raw]; [|destruct Hf as [_ F]; contradiction].
    pose proof (proj1 (fits_struct fs p l) Hf) as [Hp Hff].
    destruct (fits_tag _ p _ Hf ltac:(discriminate)) as (tag & Et).
    destruct (tag_wire _ p _ tag 0 Hf ltac:(discriminate) Et) as [_ B].
    rewrite make_field_eq, Lo, Et in Hm. cbn [make_body] in Hm.
    destruct (make_fields fs l) as [body|] eqn:Eb; [|discriminate]. injection Hm as <-.
    apply wrap_der; [exact Hp|exact B|exact Hl|]. cbn [is_cons universal].
    pose proof (wrap_longer p (is_cons (GStruct false fs)) tag body).
    apply (made_fields_der fs l body); auto; [|lia]. cbn [octs] in Ho. now apply octs_list.
  - destruct v as [| | | | | | | | |l|]; try (destruct Hf as [_ F]; contradiction).
    pose proof (proj1 (fits_slice t p l) Hf) as (Hp & Hff & _).
    destruct (fits_tag _ p _ Hf ltac:(discriminate)) as (tag & Et).
    destruct (tag_wire _ p _ tag 0 Hf ltac:(discriminate) Et) as [_ B].
    rewrite make_field_eq, Lo, Et in Hm. cbn [make_body] in Hm.
    destruct (all_some (map (make_field t p0) l)) as [bs|] eqn:Eb; [|discriminate]. cbn [opt_map] in Hm. injection Hm as <-.
    pose proof (wrap_longer p (is_cons (GSlice t)) tag (concat (if p_set p then sort_bytes bs else bs))) as W.
    apply wrap_der; [exact Hp|exact B|exact Hl|]. cbn [is_cons universal] in *.
    set (bs' := if p_set p then sort_bytes bs else bs).
    assert (P : Permutation bs bs') by (subst bs'; destruct (p_set p); [apply sort_perm|reflexivity]).
    assert (Q : length (concat bs) = length (concat bs')).
    { clear - P. induction P; cbn [concat]; repeat rewrite app_length; congruence || lia. }
    assert (Hlb : Z.of_nat (length (concat bs)) < 2 ^ 31) . { rewrite Q. unfold bs'. apply Z.lt_trans with (2 := Hl). apply inj_lt. exact W. }
    cbn [octs] in Ho. apply octs_list in Ho.
    assert (D : Forall (fun b => exists tr, der tr b) bs).
    { clear - Eb Hff Ho IHt Hlb. revert bs Eb Hlb. induction l as [|v l IH]; intros bs Eb Hlb.
      - injection Eb as <-. constructor.
      - cbn [map all_some] in Eb. destruct (make_field t p0 v) as [b1|] eqn:E1; [|discriminate].
        destruct (all_some (map (make_field t p0) l)) as [b2|] eqn:E2; [|discriminate]. injection Eb as <-.
        cbn [concat] in Hlb. rewrite app_length in Hlb. inversion Hff; subst. inversion Ho; subst.
        constructor; [|apply IH; auto; lia]. apply (IHt p0 v b1); auto. lia. }
    apply ders_concat. apply Forall_forall. intros x Hx. rewrite Forall_forall in D. apply D.
    eapply Permutation_in; [symmetry; exact P|exact Hx].
Qed.

Theorem marshal_der : forall t v b, fits t p0 v -> octs v -> marshal t v = Some b ->
  Z.of_nat (length b) < 2 ^ 31 -> exists tr, der tr b.
Proof. intros. eapply made_der; eauto. Qed.

(** DER consists of octets. *)
Lemma der_bytes_ok : (forall t b, der t b -> bytes_ok b = true) /\ (forall ts b, ders ts b -> bytes_ok b = true).
Proof.
  assert (T : forall c tag, tag_octets c tag -> bytes_ok tag = true).
  { intros c tag H. destruct H as [b H _ _|b mid last H _ _ Hm Hl].
    - apply ok_cons; [lia|reflexivity].
    - apply ok_cons; [lia|]. apply ok_app; [|apply ok_cons; [lia|reflexivity]].
      induction Hm; [reflexivity|]. apply ok_cons; [lia|assumption]. }
  assert (L : forall n l, der_len n l -> bytes_ok l = true).
  { intros n l [H _]. destruct H as [n H|k ds n H1 H2 H3 H4 H5]; apply ok_cons; auto; lia. }
  apply der_ders_ind; intros; repeat apply ok_app; eauto.
Qed.
