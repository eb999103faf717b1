(** InvalidateObject: what the work list loop removes, and its termination. *)
From Coq Require Import Lia.
From Verif.Model Require Import Base Str Tal Validator.
From Verif.Spec Require Import Trust.
From Verif.Proofs Require Import StrProofs HeapProofs.

Definition drop_keys (l : list bytes) (v : validator) : validator :=
  fold_left (fun v k => drop_key k v) l v.

Lemma drop_keys_heap : forall l v, v_heap (drop_keys l v) = v_heap v.
Proof. induction l; intros; cbn; auto. rewrite IHl. reflexivity. Qed.
Lemma drop_keys_objects : forall l v, v_objects (drop_keys l v) = v_objects v.
Proof. induction l; intros; cbn; auto. rewrite IHl. reflexivity. Qed.
Lemma drop_keys_tals : forall l v, v_tals (drop_keys l v) = v_tals v.
Proof. induction l; intros; cbn; auto. rewrite IHl. reflexivity. Qed.
Lemma drop_keys_path : forall l v, v_path (drop_keys l v) = v_path v.
Proof. induction l; intros; cbn; auto. rewrite IHl. reflexivity. Qed.
Lemma drop_keys_serial : forall l v, v_serial (drop_keys l v) = v_serial v.
Proof. induction l; intros; cbn; auto. rewrite IHl. reflexivity. Qed.
Lemma drop_keys_revoked : forall l v, v_revoked (drop_keys l v) = v_revoked v.
Proof. induction l; intros; cbn; auto. rewrite IHl. reflexivity. Qed.
Lemma drop_keys_crl : forall l v, v_crl (drop_keys l v) = v_crl v.
Proof. induction l; intros; cbn; auto. rewrite IHl. reflexivity. Qed.
Lemma drop_keys_roa : forall l v, v_roa (drop_keys l v) = v_roa v.
Proof. induction l; intros; cbn; auto. rewrite IHl. reflexivity. Qed.
Lemma drop_keys_mft : forall l v, v_mft (drop_keys l v) = v_mft v.
Proof. induction l; intros; cbn; auto. rewrite IHl. reflexivity. Qed.
Lemma drop_keys_validmft : forall l v, v_validmft (drop_keys l v) = v_validmft v.
Proof. induction l; intros; cbn; auto. rewrite IHl. reflexivity. Qed.
Lemma drop_keys_time : forall l v, v_time (drop_keys l v) = v_time v.
Proof. induction l; intros; cbn; auto. rewrite IHl. reflexivity. Qed.

Lemma drop_gen : forall (proj : validator -> kmap addr),
  (forall x v k, proj (drop_key x v) k = kdel (proj v) x k) ->
  forall l v k,
  (In k l -> proj (drop_keys l v) k = None) /\
  (~ In k l -> proj (drop_keys l v) k = proj v k).
Proof.
  intros proj Hp. induction l as [|x l IH]; intros v k; cbn [In]; [split; intros; [tauto|reflexivity]|].
  change (drop_keys (x :: l) v) with (drop_keys l (drop_key x v)).
  destruct (IH (drop_key x v) k) as [I1 I2]. split; intros H.
  - destruct (in_dec beq_dec k l) as [Y|N]; [exact (I1 Y)|].
    destruct H as [->|H]; [|contradiction]. rewrite (I2 N), Hp. apply kdel_eq.
  - rewrite I2 by tauto. rewrite Hp. apply kdel_neq. intros ->. apply H. left. reflexivity.
Qed.

Lemma drop_keys_valid : forall l v k,
  (In k l -> v_valid (drop_keys l v) k = None) /\
  (~ In k l -> v_valid (drop_keys l v) k = v_valid v k).
Proof. apply drop_gen. reflexivity. Qed.
Lemma drop_keys_validroa : forall l v k,
  (In k l -> v_validroa (drop_keys l v) k = None) /\
  (~ In k l -> v_validroa (drop_keys l v) k = v_validroa v k).
Proof. apply drop_gen. reflexivity. Qed.
Lemma drop_keys_validcrl : forall l v k,
  (In k l -> v_validcrl (drop_keys l v) k = None) /\
  (~ In k l -> v_validcrl (drop_keys l v) k = v_validcrl v k).
Proof. apply drop_gen. reflexivity. Qed.

Lemma child_key_drop : forall l v k k', child_key (drop_keys l v) k k' <-> child_key v k k'.
Proof. intros. unfold child_key. rewrite drop_keys_heap, drop_keys_objects. tauto. Qed.

Lemma below_ext : forall v1 v2, v_heap v1 = v_heap v2 -> v_objects v1 = v_objects v2 ->
  forall k k', below v1 k k' -> below v2 k k'.
Proof.
  intros v1 v2 H O k k' B. induction B as [|k1 k2 B IH C]; [constructor|].
  apply (below_child _ _ k1); auto. unfold child_key in *. now rewrite <- H, <- O.
Qed.

Lemma below_front : forall v k k1 k2, child_key v k k1 -> below v k1 k2 -> below v k k2.
Proof.
  intros v k k1 k2 C B. induction B as [|k3 k4 B IH D].
  - apply (below_child _ _ k); [constructor|exact C].
  - apply (below_child _ _ k3); auto.
Qed.

Lemma child_ids_spec : forall h l ids, child_ids h l = VRet ids ->
  forall k, In k ids <-> exists b rb, In b l /\ nth_error h b = Some rb /\ identifier (r_obj rb) = Some k.
Proof.
  induction l as [|a l IH]; intros ids H k; cbn [child_ids] in H.
  - inversion H; subst. split; [intros []|intros (b & rb & [] & _)].
  - unfold deref in H. destruct (nth_error h a) as [r|] eqn:E; [|discriminate]. cbn [vbind] in H.
    destruct (child_ids h l) as [ids'| |] eqn:C; cbn [vbind] in H; try discriminate.
    specialize (IH ids' eq_refl k). inversion H; subst; clear H. split.
    + intros I. destruct (identifier (r_obj r)) as [k0|] eqn:D.
      * destruct I as [->|I]; [exists a, r; cbn; auto|].
        apply IH in I. destruct I as (b & rb & I & N & D'). exists b, rb. cbn. auto.
      * apply IH in I. destruct I as (b & rb & I & N & D'). exists b, rb. cbn. auto.
    + intros (b & rb & [->|I] & N & D).
      * rewrite E in N. inversion N; subst. rewrite D. left. reflexivity.
      * assert (In k ids') by (apply IH; eauto). destruct (identifier (r_obj r)); cbn; auto.
Qed.

Lemma child_ids_length : forall h l ids, child_ids h l = VRet ids -> (length ids <= length l)%nat.
Proof.
  induction l as [|a l IH]; intros ids H; cbn [child_ids] in H; [inversion H; cbn; lia|].
  unfold deref in H. destruct (nth_error h a) as [r|]; [|discriminate]. cbn [vbind] in H.
  destruct (child_ids h l) as [ids'| |]; cbn [vbind] in H; try discriminate.
  specialize (IH ids' eq_refl). inversion H; subst. destruct (identifier (r_obj r)); cbn; lia.
Qed.

Lemma child_ids_total : forall h l, (forall b, In b l -> (b < length h)%nat) ->
  exists ids, child_ids h l = VRet ids.
Proof.
  induction l as [|a l IH]; intros H; cbn [child_ids]; [eauto|].
  destruct (deref_lt h a) as [r ->]; [apply H; left; reflexivity|].
  destruct IH as [ids ->]; [intros; apply H; right; assumption|]. cbn [vbind]. eauto.
Qed.

Lemma kin_kset : forall A (m : kmap A) k a k', kin (kset m k a) k' = beq k' k || kin m k'.
Proof. intros. unfold kin, kset. destruct (beq k' k); reflexivity. Qed.

(** What the loop removes. *)
Lemma inval_loop_spec : forall fuel q done v v',
  inval_loop fuel q done v = VRet v' ->
  exists D, v' = drop_keys D v /\
    (forall k, In k D -> kin done k = false /\ exists q0, In q0 q /\ below v q0 k) /\
    (forall k, In k q -> kin done k = true \/ In k D) /\
    (forall k k', In k D -> child_key v k k' -> kin done k' = true \/ In k' D).
Proof.
  induction fuel as [|fuel IH]; intros q done v v' H; destruct q as [|ski q]; cbn [inval_loop] in H.
  - inversion H; subst. exists []. cbn. repeat split; try tauto.
  - discriminate.
  - inversion H; subst. exists []. cbn. repeat split; try tauto.
  - destruct (kin done ski) eqn:K.
    + destruct (IH _ _ _ _ H) as (D & -> & P1 & P2 & P3). exists D. split; [reflexivity|]. repeat split.
      * apply P1. assumption.
      * destruct (P1 _ H0) as (_ & q0 & I & B). exists q0. cbn. auto.
      * intros k [->|I]; auto.
      * exact P3.
    + assert (X : exists ids, inval_loop fuel (q ++ ids) (kset done ski true) (drop_key ski v) = VRet v' /\
                  (forall k, In k ids <-> child_key v ski k)).
      { destruct (v_objects v ski) as [a|] eqn:O.
        - destruct (deref (v_heap v) a) as [r| |] eqn:DR; cbn [vbind] in H; try discriminate.
          destruct (child_ids (v_heap v) (r_childs r)) as [ids| |] eqn:C; cbn [vbind] in H; try discriminate.
          exists ids. split; [exact H|]. intros k. rewrite (child_ids_spec _ _ _ C).
          unfold deref in DR. destruct (nth_error (v_heap v) a) eqn:N; inversion DR; subst.
          unfold child_key. split.
          + intros (b & rb & I & N' & D). exists a, r, b, rb. auto.
          + intros (a' & r' & b & rb & O' & N' & I & N'' & D). rewrite O in O'. inversion O'; subst.
            rewrite N in N'. inversion N'; subst. eauto.
        - exists []. rewrite app_nil_r. split; [exact H|]. intros k. split; [intros []|].
          intros (a & r & b & rb & O' & _). congruence. }
      clear H. destruct X as (ids & H & IDS).
      destruct (IH _ _ _ _ H) as (D & -> & P1 & P2 & P3).
      assert (CK : forall k k', child_key (drop_key ski v) k k' <-> child_key v k k') by (intros; reflexivity).
      assert (BL : forall k k', below (drop_key ski v) k k' -> below v k k').
      { intros k k'. apply below_ext; reflexivity. }
      exists (ski :: D). split; [reflexivity|]. repeat split.
      * destruct H0 as [<-|I]; [exact K|]. destruct (P1 _ I) as (E & _).
        rewrite kin_kset in E. apply orb_false_iff in E. tauto.
      * destruct H0 as [<-|I]; [exists ski; split; [left; reflexivity|constructor]|].
        destruct (P1 _ I) as (_ & q0 & IQ & B). apply BL in B. apply in_app_or in IQ. destruct IQ as [IQ|IQ].
        -- exists q0. split; [right; exact IQ|exact B].
        -- exists ski. split; [left; reflexivity|]. apply IDS in IQ. now apply (below_front _ _ q0).
      * intros k [<-|I]; [right; left; reflexivity|].
        destruct (P2 k) as [E|E]; [apply in_or_app; auto| |right; right; exact E].
        rewrite kin_kset in E. apply orb_true_iff in E. destruct E as [E|E]; [|auto].
        apply beq_eq in E. subst. right. left. reflexivity.
      * intros k k' [<-|I] C.
        -- apply IDS in C. destruct (P2 k') as [E|E]; [apply in_or_app; auto| |right; right; exact E].
           rewrite kin_kset in E. apply orb_true_iff in E. destruct E as [E|E]; [|auto].
           apply beq_eq in E. subst. right. left. reflexivity.
        -- destruct (P3 k k' I) as [E|E]; [now apply CK| |right; right; exact E].
           rewrite kin_kset in E. apply orb_true_iff in E. destruct E as [E|E]; [|auto].
           apply beq_eq in E. subst. right. left. reflexivity.
Qed.

(** InvalidateObject drops exactly the keys below the given one. *)
Lemma invalidate_spec : forall k v v', invalidate k v = VRet v' ->
  exists D, v' = drop_keys D v /\ (forall k', In k' D <-> below v k k').
Proof.
  intros k v v' H. unfold invalidate in H. apply inval_loop_spec in H.
  destruct H as (D & -> & P1 & P2 & P3). exists D. split; [reflexivity|]. intros k'. split.
  - intros I. destruct (P1 _ I) as (_ & q0 & [<-|[]] & B). exact B.
  - intros B. induction B as [|k1 k2 B IH C].
    + destruct (P2 k) as [E|E]; [left; reflexivity|discriminate|exact E].
    + destruct (P3 _ _ IH C) as [E|E]; [discriminate|exact E].
Qed.

(** Termination: child links of certificates not visited yet. *)
Definition weight (done : kmap bool) (r : resource) : nat :=
  match r_obj r with
  | OCert c => if kin done (c_ski c) then O else length (r_childs r)
  | _ => O
  end.
Definition pot (done : kmap bool) (h : list resource) : nat :=
  fold_right (fun r n => (weight done r + n)%nat) O h.

Lemma pot_le_total : forall done h, (pot done h <= child_total h)%nat.
Proof.
  induction h as [|r h IH]; [cbn; lia|].
  cbn [pot child_total fold_right]. fold (pot done h). fold (child_total h).
  unfold weight. destruct (r_obj r); try lia. destruct (kin done (c_ski c)); lia.
Qed.

Lemma pot_mono : forall done k h, (pot (kset done k true) h <= pot done h)%nat.
Proof.
  induction h as [|r h IH]; [cbn; lia|].
  cbn [pot fold_right]. fold (pot done h). fold (pot (kset done k true) h).
  assert (weight (kset done k true) r <= weight done r)%nat; [|lia].
  unfold weight. destruct (r_obj r); try lia. rewrite kin_kset. destruct (beq (c_ski c) k); cbn; lia.
Qed.

Lemma pot_visit : forall done k h a r c,
  nth_error h a = Some r -> r_obj r = OCert c -> c_ski c = k -> kin done k = false ->
  (length (r_childs r) + pot (kset done k true) h <= pot done h)%nat.
Proof.
  induction h as [|r0 h IH]; intros a r c N O E K; [destruct a; discriminate|].
  cbn [pot fold_right]. fold (pot done h). fold (pot (kset done k true) h).
  destruct a; cbn in N.
  - inversion N; subst r0. pose proof (pot_mono done k h).
    unfold weight. rewrite O, kin_kset, E, beq_refl, K. cbn. lia.
  - specialize (IH a r c N O E K).
    assert (weight (kset done k true) r0 <= weight done r0)%nat; [|lia].
    unfold weight. destruct (r_obj r0); try lia. rewrite kin_kset. destruct (beq (c_ski c0) k); cbn; lia.
Qed.

Lemma inval_loop_total : forall fuel q done v,
  (forall k a, v_objects v k = Some a -> exists c, hobj (v_heap v) a = Some (OCert c) /\ c_ski c = k) ->
  (forall a b, In b (hch (v_heap v) a) -> (b < length (v_heap v))%nat) ->
  (length q + pot done (v_heap v) <= fuel)%nat ->
  exists v', inval_loop fuel q done v = VRet v'.
Proof.
  induction fuel as [|fuel IH]; intros q done v IO IC F; destruct q as [|ski q]; cbn [inval_loop]; eauto.
  - cbn in F. lia.
  - cbn [length] in F. destruct (kin done ski) eqn:K.
    + apply IH; auto. lia.
    + destruct (v_objects v ski) as [a|] eqn:O.
      * destruct (IO _ _ O) as (c & HO & E).
        destruct (deref_of_hobj _ _ _ HO) as (r & DR & RO). rewrite DR. cbn [vbind].
        assert (CH : hch (v_heap v) a = r_childs r) by now apply deref_hobj in DR.
        destruct (child_ids_total (v_heap v) (r_childs r)) as [ids C].
        { intros b I. rewrite <- CH in I. eauto. }
        rewrite C. cbn [vbind]. apply IH; auto.
        assert (N : nth_error (v_heap v) a = Some r).
        { unfold deref in DR. destruct (nth_error (v_heap v) a); inversion DR; reflexivity. }
        pose proof (pot_visit done ski _ _ _ _ N RO E K). pose proof (child_ids_length _ _ _ C).
        rewrite app_length. cbn [drop_key v_heap]. lia.
      * apply IH; auto. cbn [drop_key v_heap]. pose proof (pot_mono done ski (v_heap v)). lia.
Qed.

Lemma invalidate_total : forall k v,
  (forall k a, v_objects v k = Some a -> exists c, hobj (v_heap v) a = Some (OCert c) /\ c_ski c = k) ->
  (forall a b, In b (hch (v_heap v) a) -> (b < length (v_heap v))%nat) ->
  exists v', invalidate k v = VRet v'.
Proof.
  intros k v IO IC. unfold invalidate. apply inval_loop_total; auto.
  cbn [length]. pose proof (pot_le_total kempty (v_heap v)). lia.
Qed.
