(** The invariant holds along every run. *)
From Coq Require Import Lia.
From Verif.Model Require Import Base NetIP CertRes Roa Str Tal Validator.
From Verif.Spec Require Import Trust.
From Verif.Proofs Require Import StrProofs HeapProofs Invalidate ValidatorInv.

(** Take apart a [do!] in a hypothesis. *)
Ltac vb H :=
  match type of H with
  | vbind ?x _ = _ =>
      let y := fresh "y" in let E := fresh "E" in
      destruct x as [y| |] eqn:E; cbn [vbind] in H; [|discriminate H|discriminate H]
  end.

Section Run.
Variable sig_ok : cert -> cert -> bool.
Variable crl_sig_ok : cert -> crl -> bool.
Variable dec_tal : bytes -> option tal.
Variable dec_cert : bytes -> option cert.
Variable dec_roa : bytes -> option roa.
Variable dec_mft : bytes -> option mft.
Variable dec_crl : bytes -> option crl.
Variable hex_sha1 : bytes -> bytes.

Notation Inv := (Inv sig_ok).
Notation add_cert := (add_cert sig_ok).
Notation add_roa := (add_roa sig_ok).
Notation add_mft := (add_mft sig_ok).
Notation add_crl := (add_crl crl_sig_ok).
Notation add_resource := (add_resource sig_ok crl_sig_ok dec_tal dec_cert dec_roa dec_mft dec_crl hex_sha1).
Notation step := (step sig_ok crl_sig_ok dec_tal dec_cert dec_roa dec_mft dec_crl hex_sha1).
Notation run := (run sig_ok crl_sig_ok dec_tal dec_cert dec_roa dec_mft dec_crl hex_sha1).

Lemma inv_add_roa : forall T v f r v' valid b err,
  Inv T v -> add_roa f r v = VRet (v', (valid, b, err)) ->
  Inv T v' /\ v_time v' = v_time v /\ (b < length (v_heap v'))%nat.
Proof.
  intros T v f r v' valid b err I H. unfold Validator.add_roa in H. vb H.
  destruct y as (v1 & ((va & ps) & a) & er).
  assert (F : false = true -> T (roa_cert r)) by discriminate.
  destruct (inv_add_cert sig_ok T _ _ _ _ _ _ _ _ I F E) as (I1 & HA & EA & L1 & T1 & VA).
  set (v2 := upd a (fun x => with_type TRoaCer (with_file f x)) v1) in *.
  assert (I2 : Inv T v2) by (apply inv_upd_meta; auto; apply meta_type_file).
  assert (S2 : hsim (v_heap v2) (v_heap v1)) by (apply hsim_upd_meta, meta_type_file).
  destruct S2 as [SL SV].
  assert (HA2 : hobj (v_heap v2) a = Some (OCert (roa_cert r))) by (rewrite (proj1 (SV a)); exact HA).
  assert (V2 : v_valid v2 = v_valid v1) by reflexivity.
  assert (T2 : v_time v2 = v_time v1) by reflexivity.
  clearbody v2.
  set (v3 := alloc (new_res TRoa (Some a) f (ORoa r)) v2) in *.
  assert (HB : hobj (v_heap v3) (length (v_heap v2)) = Some (ORoa r)).
  { unfold v3. cbn. rewrite hobj_alloc, Nat.eqb_refl. reflexivity. }
  assert (HA3 : hobj (v_heap v3) a = Some (OCert (roa_cert r))).
  { unfold v3. cbn. rewrite hobj_alloc. destruct (Nat.eqb_spec a (length (v_heap v2))); [|exact HA2].
    rewrite SL, L1 in e. lia. }
  assert (I3 : Inv T v3).
  { apply inv_alloc; auto. cbn. intros p P. inversion P; subst. rewrite SL, L1. lia. }
  assert (V3 : v_valid v3 = v_valid v1) by (unfold v3; cbn; exact V2).
  assert (T3 : v_time v3 = v_time v1) by (unfold v3; cbn; exact T2).
  assert (L3 : length (v_heap v3) = S (length (v_heap v2))) by (unfold v3; cbn; rewrite app_length; cbn; lia).
  clearbody v3.
  set (bb := length (v_heap v2)) in *.
  set (v4 := upd a (with_child bb) v3) in *.
  assert (I4 : Inv T v4).
  { apply inv_add_link; auto. split; [lia|]. left. exists r. auto. }
  assert (HO4 : forall x, hobj (v_heap v4) x = hobj (v_heap v3) x) by (intros; apply hobj_child).
  assert (V4 : v_valid v4 = v_valid v1) by (unfold v4; cbn; exact V3).
  assert (T4 : v_time v4 = v_time v1) by (unfold v4; cbn; exact T3).
  assert (L4 : length (v_heap v4) = S bb) by (unfold v4; cbn; rewrite length_heap_upd; exact L3).
  clearbody v4. inversion H; subst v' valid b err; clear H. split; [|split].
  - apply inv_put_roa.
    destruct (va && validate_entries (roa_entries r) && roa_inner r) eqn:VV; [|exact I4].
    apply andb_true_iff in VV. destruct VV as [VV RI]. apply andb_true_iff in VV. destruct VV as [-> RE].
    destruct (VA eq_refl) as [VA1 VA2].
    apply (inv_put_validroa sig_ok T v4 _ bb r a); rewrite ?HO4, ?V4; auto.
  - cbn. destruct (va && validate_entries (roa_entries r) && roa_inner r); cbn; congruence.
  - cbn. destruct (va && validate_entries (roa_entries r) && roa_inner r); cbn; lia.
Qed.

Lemma inv_add_mft : forall T v f m v' valid ps ob err,
  Inv T v -> add_mft f m v = VRet (v', (valid, ps, ob, err)) ->
  Inv T v' /\ v_time v' = v_time v /\ (forall b, ob = Some b -> (b < length (v_heap v'))%nat).
Proof.
  intros T v f r v' valid ps' b err I H. unfold Validator.add_mft in H.
  destruct (extract_path_mft (mft_files r)) as [paths|];
    [|inversion H; subst; split; [exact I|split; [reflexivity|discriminate]]].
  vb H. destruct y as (v1 & ((va & ps) & a) & er).
  assert (F : false = true -> T (mft_cert r)) by discriminate.
  destruct (inv_add_cert sig_ok T _ _ _ _ _ _ _ _ I F E) as (I1 & HA & EA & L1 & T1 & VA).
  set (v2 := upd a (fun x => with_type TMftCer (with_file f x)) v1) in *.
  assert (I2 : Inv T v2) by (apply inv_upd_meta; auto; apply meta_type_file).
  assert (S2 : hsim (v_heap v2) (v_heap v1)) by (apply hsim_upd_meta, meta_type_file).
  destruct S2 as [SL SV].
  assert (HA2 : hobj (v_heap v2) a = Some (OCert (mft_cert r))) by (rewrite (proj1 (SV a)); exact HA).
  assert (V2 : v_objects v2 = v_objects v1) by reflexivity.
  assert (T2 : v_time v2 = v_time v1) by reflexivity.
  clearbody v2.
  set (v3 := alloc (new_res TMft (Some a) f (OMft r)) v2) in *.
  assert (HB : hobj (v_heap v3) (length (v_heap v2)) = Some (OMft r)).
  { unfold v3. cbn. rewrite hobj_alloc, Nat.eqb_refl. reflexivity. }
  assert (HA3 : hobj (v_heap v3) a = Some (OCert (mft_cert r))).
  { unfold v3. cbn. rewrite hobj_alloc. destruct (Nat.eqb_spec a (length (v_heap v2))); [|exact HA2].
    rewrite SL, L1 in e. lia. }
  assert (I3 : Inv T v3).
  { apply inv_alloc; auto. cbn. intros p P. inversion P; subst. rewrite SL, L1. lia. }
  assert (V3 : v_objects v3 = v_objects v1) by (unfold v3; cbn; exact V2).
  assert (T3 : v_time v3 = v_time v1) by (unfold v3; cbn; exact T2).
  assert (L3 : length (v_heap v3) = S (length (v_heap v2))) by (unfold v3; cbn; rewrite app_length; cbn; lia).
  clearbody v3.
  set (bb := length (v_heap v2)) in *.
  set (v4 := upd a (with_child bb) v3) in *.
  assert (I4 : Inv T v4).
  { apply inv_add_link; auto. split; [lia|]. right. left. exists r. auto. }
  assert (HO4 : forall x, hobj (v_heap v4) x = hobj (v_heap v3) x) by (intros; apply hobj_child).
  assert (V4 : v_objects v4 = v_objects v1) by (unfold v4; cbn; exact V3).
  assert (T4 : v_time v4 = v_time v1) by (unfold v4; cbn; exact T3).
  assert (L4 : length (v_heap v4) = S bb) by (unfold v4; cbn; rewrite length_heap_upd; exact L3).
  clearbody v4. inversion H; subst v' valid ps' b err; clear H. split; [|split].
  - apply inv_put_mft.
    destruct (va && mft_inner r) eqn:VV; [|exact I4].
    apply andb_true_iff in VV. destruct VV as [-> RI].
    destruct (VA eq_refl) as [VA1 VA2].
    apply (inv_put_validmft sig_ok T v4 _ bb r a); rewrite ?HO4, ?V4; auto.
  - cbn. destruct (va && mft_inner r); cbn; congruence.
  - intros b B. inversion B; subst. cbn. destruct (va && mft_inner r); cbn; lia.
Qed.

(** Facts kept by the revocation loop. *)
Definition same_base (v v' : validator) : Prop :=
  v_heap v' = v_heap v /\ v_objects v' = v_objects v /\ v_time v' = v_time v /\
  v_serial v' = v_serial v /\ v_tals v' = v_tals v /\ v_path v' = v_path v /\
  v_roa v' = v_roa v /\ v_crl v' = v_crl v /\ v_mft v' = v_mft v /\ v_validmft v' = v_validmft v.
Lemma same_base_refl : forall v, same_base v v.
Proof. repeat split. Qed.
Lemma same_base_trans : forall a b c, same_base a b -> same_base b c -> same_base a c.
Proof. unfold same_base. intros a b c H1 H2. intuition congruence. Qed.
Lemma same_base_drop : forall D v, same_base v (drop_keys D v).
Proof.
  intros. unfold same_base. rewrite drop_keys_heap, drop_keys_objects, drop_keys_time, drop_keys_serial,
    drop_keys_tals, drop_keys_path, drop_keys_roa, drop_keys_crl, drop_keys_mft, drop_keys_validmft. auto 20.
Qed.
Lemma same_base_revoked : forall k v, same_base v (put_revoked k v).
Proof. repeat split. Qed.
Lemma same_base_invalidate : forall k v v', invalidate k v = VRet v' -> same_base v v'.
Proof. intros k v v' H. apply invalidate_spec in H. destruct H as (D & -> & _). apply same_base_drop. Qed.

(** One round of the loop: the optional invalidation. *)
Definition revoke_one (aki : bytes) (s : Z) (v : validator) : vres validator :=
  match v_serial v (serial_key aki s) with
  | Some a =>
      do! r := deref (v_heap v) a in
      match r_obj r with
      | OCert c => if c_serial c =? s then invalidate (c_ski c) v else VRet v
      | _ => VPanic
      end
  | None => VRet v
  end.
Lemma revoke_loop_cons : forall aki s l v,
  revoke_loop aki (s :: l) v =
  do! v1 := revoke_one aki s v in revoke_loop aki l (put_revoked (serial_key aki s) v1).
Proof. reflexivity. Qed.

Lemma revoke_one_spec : forall aki s v v1, revoke_one aki s v = VRet v1 ->
  v1 = v \/
  exists a c, v_serial v (serial_key aki s) = Some a /\ hobj (v_heap v) a = Some (OCert c) /\
    c_serial c = s /\ invalidate (c_ski c) v = VRet v1.
Proof.
  intros aki s v v1 H. unfold revoke_one in H.
  destruct (v_serial v (serial_key aki s)) as [a|]; [|left; congruence].
  vb H. destruct (deref_hobj _ _ _ E) as (HO & _).
  destruct (r_obj y) as [c| | | |]; try discriminate.
  destruct (Z.eqb_spec (c_serial c) s); [|left; congruence].
  right. exists a, c. auto.
Qed.

Lemma inv_revoke_loop : forall T aki l v v',
  Inv T v -> revoke_loop aki l v = VRet v' -> Inv T v' /\ same_base v v'.
Proof.
  intros T aki. induction l as [|s l IH]; intros v v' I H.
  - inversion H; subst. split; [exact I|apply same_base_refl].
  - rewrite revoke_loop_cons in H. vb H.
    assert (X : Inv T y /\ same_base v y).
    { destruct (revoke_one_spec _ _ _ _ E) as [->|(a & c & _ & _ & _ & IV)].
      - split; [exact I|apply same_base_refl].
      - split; [eapply inv_invalidate; eauto|eapply same_base_invalidate; eauto]. }
    destruct X as [I1 S1]. apply IH in H; [|now apply inv_put_revoked].
    destruct H as [I2 S2]. split; auto.
    eapply same_base_trans; [exact S1|]. eapply same_base_trans; [apply same_base_revoked|exact S2].
Qed.

Lemma revoke_loop_total : forall T aki l v, Inv T v -> exists v', revoke_loop aki l v = VRet v'.
Proof.
  intros T aki. induction l as [|s l IH]; intros v I; [cbn; eauto|].
  rewrite revoke_loop_cons.
  assert (X : exists v1, revoke_one aki s v = VRet v1 /\ Inv T v1).
  { unfold revoke_one. destruct (v_serial v (serial_key aki s)) as [a|] eqn:SE; [|eauto].
    destruct (inv_serial _ _ _ I _ _ SE) as (c & HO & _).
    destruct (deref_of_hobj _ _ _ HO) as (r & D & RO). rewrite D. cbn [vbind]. rewrite RO.
    destruct (c_serial c =? s); [|eauto].
    destruct (inv_invalidate_total sig_ok T v (c_ski c) I) as (v1 & E). exists v1. split; auto.
    eapply inv_invalidate; eauto. }
  destruct X as (v1 & -> & I1). cbn [vbind]. apply IH. now apply inv_put_revoked.
Qed.

(** AddCRL, taken apart. *)
Lemma add_crl_cases : forall l v v' valid a,
  add_crl l v = VRet (v', (valid, a)) ->
  let aki := crl_aki (crl_exts l) [] in
  let v1 := alloc (new_res TCrl (v_objects v aki) None (OCrl l)) v in
  a = length (v_heap v) /\
  ((valid = false /\ v' = put_crl aki a v1) \/
   (valid = true /\ exists p pc v3, v_objects v aki = Some p /\ v_valid v aki <> None /\
      hobj (v_heap v) p = Some (OCert pc) /\ crl_sig_ok pc l = true /\
      revoke_loop aki (crl_serials l) (put_validcrl aki a v1) = VRet v3 /\
      v' = put_crl aki a (upd p (with_child a) v3))).
Proof.
  intros l v v' valid a H aki v1. unfold Validator.add_crl in H. fold aki in H. fold v1 in H.
  unfold kin in H. destruct (v_valid v aki) as [va|] eqn:V; cbn [vbind] in H.
  - destruct (v_objects v aki) as [p|] eqn:O; [|discriminate].
    destruct (deref (v_heap v) p) as [pr| |] eqn:D; cbn [vbind] in H; try discriminate.
    destruct (deref_hobj _ _ _ D) as (HO & _).
    destruct (r_obj pr) as [pc| | | |] eqn:RO; try (inversion H; subst; split; [reflexivity|left; auto]).
    destruct (crl_sig_ok pc l) eqn:S; [|inversion H; subst; split; [reflexivity|left; auto]].
    destruct (revoke_loop aki (crl_serials l) (put_validcrl aki (length (v_heap v)) v1)) as [v3| |] eqn:R;
      cbn [vbind] in H; try discriminate.
    inversion H; subst; split; [reflexivity|right]. split; auto. exists p, pc, v3. repeat split; auto. discriminate.
  - inversion H; subst; split; [reflexivity|left; auto].
Qed.

Lemma inv_crl_alloc : forall T v l aki,
  Inv T v -> Inv T (alloc (new_res TCrl (v_objects v aki) None (OCrl l)) v).
Proof.
  intros T v l aki I. apply inv_alloc; auto. cbn. intros p H.
  destruct (inv_obj _ _ _ I _ _ H) as (x & Y & _). now apply hobj_lt in Y.
Qed.

Lemma inv_add_crl : forall T v l v' valid a,
  Inv T v -> add_crl l v = VRet (v', (valid, a)) -> Inv T v' /\ v_time v' = v_time v.
Proof.
  intros T v l v' valid a I H. apply add_crl_cases in H. destruct H as (-> & C).
  set (aki := crl_aki (crl_exts l) []) in *.
  set (v1 := alloc (new_res TCrl (v_objects v aki) None (OCrl l)) v) in *.
  assert (I1 : Inv T v1) by now apply inv_crl_alloc.
  destruct C as [[_ ->]|(_ & p & pc & v3 & O & V & HO & _ & R & ->)].
  - split; [now apply inv_put_crl|reflexivity].
  - assert (HC : hobj (v_heap v1) (length (v_heap v)) = Some (OCrl l)).
    { unfold v1. cbn. rewrite hobj_alloc, Nat.eqb_refl. reflexivity. }
    assert (I2 : Inv T (put_validcrl aki (length (v_heap v)) v1)).
    { apply (inv_put_validcrl sig_ok T v1 _ _ l); auto. }
    destruct (inv_revoke_loop T _ _ _ _ I2 R) as (I3 & SB). destruct SB as (SH & _ & ST & _).
    split; [|cbn; exact ST]. apply inv_put_crl. apply inv_add_link; auto. split.
    + now apply hobj_lt in HO.
    + right. right. exists l. rewrite SH. exact HC.
Qed.

Lemma inv_add_tal : forall T v t, Inv T v ->
  Inv T (fst (add_tal hex_sha1 t v)) /\ v_time (fst (add_tal hex_sha1 t v)) = v_time v.
Proof.
  intros T v t I. split; [|reflexivity]. unfold add_tal. cbn [fst].
  apply (inv_put_tal sig_ok T _ _ _ t).
  - cbn. rewrite hobj_alloc, Nat.eqb_refl. reflexivity.
  - apply inv_alloc; auto. discriminate.
Qed.

Lemma inv_check_tal : forall T v f c v', Inv T v -> check_tal f c v = VRet (Some v') ->
  Inv T v' /\ v_time v' = v_time v.
Proof.
  intros T v f c v' I H. unfold check_tal in H.
  destruct (f_parent f) as [p|]; [|inversion H; subst; auto].
  destruct (is_tal (f_type p)); [|inversion H; subst; auto].
  destruct (v_tals v (f_path f)) as [a|]; [|inversion H; subst; auto].
  vb H. destruct (r_obj y); try discriminate. vb H.
  destruct y0; inversion H; subst. split; [|reflexivity]. apply inv_upd_meta; auto. apply meta_tal.
Qed.

Lemma inv_add_resource : forall T v f d v' res,
  Inv T v -> (forall c, f_type f = TCer -> dec_cert d = Some c -> fd_trust (f_desc f) = true -> T c) ->
  add_resource f d v = VRet (v', res) -> Inv T v' /\ v_time v' = v_time v.
Proof.
  intros T v f d v' res I TR H. unfold Validator.add_resource in H.
  destruct (f_type f) eqn:FT; try (inversion H; subst; auto; fail).
  - destruct (dec_cert d) as [c|]; [|inversion H; subst; auto]. vb H.
    destruct y as [v1|]; [|inversion H; subst; auto]. vb H. destruct y as (v2 & ((va & ps) & a) & er).
    destruct (inv_check_tal T _ _ _ _ I E) as (I1 & T1).
    assert (TR' : fd_trust (f_desc f) = true -> T c) by auto.
    destruct (inv_add_cert sig_ok T _ _ _ _ _ _ _ _ I1 TR' E0) as (I2 & _ & _ & _ & T2 & _).
    inversion H; subst. split; [|cbn; congruence]. apply inv_put_path, inv_upd_meta; auto. apply meta_file_type.
  - destruct (dec_mft d) as [m|]; [|inversion H; subst; auto]. vb H. destruct y as (v1 & ((va & ps) & oa) & er).
    destruct (inv_add_mft T _ _ _ _ _ _ _ _ I E) as (I1 & T1 & _).
    destruct oa as [a|]; inversion H; subst; auto. split; [|cbn; congruence].
    apply inv_put_path, inv_upd_meta; auto. apply meta_file.
  - destruct (dec_roa d) as [r|]; [|inversion H; subst; auto]. vb H. destruct y as (v1 & (va & a) & er).
    destruct (inv_add_roa T _ _ _ _ _ _ _ I E) as (I1 & T1 & _).
    inversion H; subst; auto. split; [|cbn; congruence].
    apply inv_put_path, inv_upd_meta; auto. apply meta_file.
  - destruct (dec_crl d) as [l|]; [|inversion H; subst; auto]. vb H. destruct y as (v1 & va & a).
    destruct (inv_add_crl T _ _ _ _ _ I E) as (I1 & T1). vb H. vb H.
    destruct (beq y y0); inversion H; subst; auto. split; [|cbn; congruence].
    apply inv_put_path, inv_upd_meta; auto. apply meta_file.
  - destruct (dec_tal d) as [t|]; [|inversion H; subst; auto].
    destruct (inv_add_tal T v t I) as (I1 & T1).
    destruct (add_tal hex_sha1 t v) as (v1 & ps & a). inversion H; subst. split; [|cbn; exact T1].
    apply inv_upd_meta; auto. apply meta_file.
Qed.

Lemma vfst_ret : forall A B (x : vres (A * B)) a, vfst x = VRet a -> exists b, x = VRet (a, b).
Proof. intros A B x a H. unfold vfst in H. vb H. destruct y. inversion H; subst. eauto. Qed.

Lemma inv_step : forall (T : cert -> Prop) v o v',
  Inv T v -> (forall c, given_as_anchor dec_cert [o] c -> T c) ->
  step o v = VRet v' -> Inv T v' /\ v_time v' = v_time v.
Proof.
  intros T v o v' I TR H. destruct o; cbn [Validator.step] in H.
  - apply vfst_ret in H. destruct H as (res & H). eapply inv_add_resource; eauto.
    intros c E1 E2 E3. apply TR. right. exists f, data. cbn. auto.
  - inversion H; subst. now apply inv_add_tal.
  - apply vfst_ret in H. destruct H as ((((va & ps) & a) & er) & H).
    assert (TR' : trust = true -> T c). { intros ->. apply TR. left. cbn. auto. }
    destruct (inv_add_cert sig_ok T _ _ _ _ _ _ _ _ I TR' H) as (I1 & _ & _ & _ & T1 & _). auto.
  - apply vfst_ret in H. destruct H as (((va & a) & er) & H). eapply inv_add_roa in H; eauto. tauto.
  - apply vfst_ret in H. destruct H as ((((va & ps) & a) & er) & H). eapply inv_add_mft in H; eauto. tauto.
  - apply vfst_ret in H. destruct H as ((va & a) & H). eapply inv_add_crl in H; eauto.
  - split; [eapply inv_invalidate; eauto|]. apply same_base_invalidate in H. unfold same_base in H. tauto.
Qed.

Lemma inv_run_gen : forall (T : cert -> Prop) ops v v',
  Inv T v -> (forall c, given_as_anchor dec_cert ops c -> T c) ->
  run ops v = VRet v' -> Inv T v' /\ v_time v' = v_time v.
Proof.
  intros T. induction ops as [|o ops IH]; intros v v' I TR H; cbn [Validator.run] in H.
  - inversion H; subst. auto.
  - vb H. assert (TR1 : forall c, given_as_anchor dec_cert [o] c -> T c).
    { intros c [[G|[]]|(f & d & [G|[]] & G')]; apply TR; [left; left; exact G|right; exists f, d; cbn; auto]. }
    destruct (inv_step T _ _ _ I TR1 E) as (I1 & T1).
    apply IH in H; auto.
    + destruct H. split; auto. congruence.
    + intros c [G|(f & d & G & G')]; apply TR; [left; right; exact G|right; exists f, d; cbn; tauto].
Qed.

Lemma inv_run : forall ops now v, run ops (new_validator now) = VRet v ->
  Inv (given_as_anchor dec_cert ops) v /\ v_time v = now.
Proof. intros ops now v H. eapply inv_run_gen in H; eauto. apply inv_new. Qed.

Lemma run_app : forall l1 l2 v, run (l1 ++ l2) v = do! v1 := run l1 v in run l2 v1.
Proof.
  induction l1 as [|o l1 IH]; intros l2 v; cbn [app Validator.run vbind]; auto.
  destruct (step o v); cbn [vbind]; auto.
Qed.
End Run.
