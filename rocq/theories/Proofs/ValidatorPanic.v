(** C14: when the validator returns. *)
From Coq Require Import Lia Permutation.
From Verif.Model Require Import Base NetIP CertRes Roa Str Tal Validator.
From Verif.Spec Require Import Trust Safe.
From Verif.Proofs Require Import CertProofs StrProofs HeapProofs Invalidate ValidatorInv ValidatorRun ValidatorMono ValidatorAccept.

(** Never out of fuel, and no panic under the condition [S]. *)
Definition good {A} (S : Prop) (x : vres A) : Prop := x <> VFuel /\ (S -> x <> VPanic).

Lemma good_ret : forall A S (a : A), good S (VRet a).
Proof. intros. split; [discriminate|intros _; discriminate]. Qed.
Lemma good_bind : forall A B S (x : vres A) (f : A -> vres B),
  good S x -> (forall a, x = VRet a -> good S (f a)) -> good S (vbind x f).
Proof. intros A B S x f [H1 H2] H. destruct x as [a| |]; cbn [vbind]; auto; [|contradiction]. split; [discriminate|]. intros s. exfalso. now apply (H2 s). Qed.
Lemma good_weaken : forall A (S S' : Prop) (x : vres A), (S' -> S) -> good S x -> good S' x.
Proof. intros A S S' x H [H1 H2]. split; auto. Qed.
Lemma good_deref : forall S h a, (a < length h)%nat -> good S (deref h a).
Proof. intros S h a L. destruct (deref_lt h a L) as (r & ->). apply good_ret. Qed.
Lemma good_vgo : forall A (S : Prop) (x : go A), (S -> x <> Panic) -> good S (vgo x).
Proof. intros A S x H. destruct x; [apply good_ret|]. split; [discriminate|]. intros s. exfalso. now apply (H s). Qed.
Lemma good_exists : forall A (S : Prop) (x : vres A), S -> good S x -> exists a, x = VRet a.
Proof. intros A S x s [H1 H2]. destruct x; eauto; [exfalso; now apply H2|contradiction]. Qed.

Definition nets_ok (l : list ipinfo) : Prop := forall i, In i l -> i <> INet None.

Lemma is_ip_in_range_ok : forall i a, i <> INet None -> is_ip_in_range i a <> Panic.
Proof.
  intros i a H. destruct i as [[n|]| |]; cbn [is_ip_in_range]; try discriminate; [contradiction| |].
  - destruct (negb _ || negb _); discriminate.
  - destruct ((family =? 1) && isSome (to4 a)); [discriminate|].
    destruct ((family =? 2) && negb (isSome (to4 a)) && isSome (to16 a)); discriminate.
Qed.
Lemma is_ip_range_in_ok : forall l mn mx, nets_ok l -> is_ip_range_in l mn mx <> Panic.
Proof.
  induction l as [|i l IH]; intros mn mx H; cbn [is_ip_range_in]; [discriminate|].
  pose proof (is_ip_in_range_ok i mn (H i (or_introl eq_refl))).
  pose proof (is_ip_in_range_ok i mx (H i (or_introl eq_refl))).
  destruct (is_ip_in_range i mn) as [[a b]|]; cbn [gbind]; [|contradiction].
  destruct (is_ip_in_range i mx) as [[c d]|]; cbn [gbind]; [|contradiction].
  destruct (a && c); [discriminate|]. destruct (b || d); [discriminate|]. apply IH. intros j J. apply H. now right.
Qed.
Lemma ip_get_range_ok : forall i, i <> INet None -> ip_get_range i <> Panic.
Proof.
  intros i H. destruct i as [[n|]| |]; cbn [ip_get_range]; try discriminate; [|contradiction].
  destruct (get_range_ip n) as [[? ?]|]; discriminate.
Qed.
Lemma validate_ip_list_ok : forall l p, nets_ok l -> nets_ok p -> validate_ip_list l p <> Panic.
Proof.
  induction l as [|i l IH]; intros p HL HP; cbn [validate_ip_list]; [discriminate|].
  pose proof (ip_get_range_ok i (HL i (or_introl eq_refl))).
  destruct (ip_get_range i) as [[[mn mx] cp]|]; cbn [gbind]; [|contradiction].
  assert (HL' : nets_ok l) by (intros j J; apply HL; now right). specialize (IH p HL' HP).
  destruct cp.
  - destruct (validate_ip_list l p) as [[[? ?] ?]|]; cbn [gbind]; [discriminate|contradiction].
  - pose proof (is_ip_range_in_ok p mn mx HP). destruct (is_ip_range_in p mn mx) as [[a b]|]; cbn [gbind]; [|contradiction].
    destruct (validate_ip_list l p) as [[[? ?] ?]|]; cbn [gbind]; [|contradiction].
    destruct a; [discriminate|]. destruct b; discriminate.
Qed.
Lemma nets_ok_check : forall l p vs iv c, validate_ip_list l p = Ret (vs, iv, c) -> nets_ok l -> nets_ok c.
Proof.
  intros l p vs iv c H N i IN. apply N. apply validate_ip_list_perm in H.
  apply (Permutation_in _ (Permutation_sym H)). apply in_or_app. right. apply in_or_app. now right.
Qed.

Section Panic.
Variable sig_ok : cert -> cert -> bool.
Variable crl_sig_ok : cert -> crl -> bool.
Variable dec_tal : bytes -> option tal.
Variable dec_cert : bytes -> option cert.
Variable dec_roa : bytes -> option roa.
Variable dec_mft : bytes -> option mft.
Variable dec_crl : bytes -> option crl.
Variable hex_sha1 : bytes -> bytes.

Notation Inv := (Inv sig_ok).
Notation add_cert := (add_cert sig_ok).
Notation add_roa := (add_roa sig_ok).
Notation add_mft := (add_mft sig_ok).
Notation add_crl := (add_crl crl_sig_ok).
Notation add_resource := (add_resource sig_ok crl_sig_ok dec_tal dec_cert dec_roa dec_mft dec_crl hex_sha1).
Notation step := (step sig_ok crl_sig_ok dec_tal dec_cert dec_roa dec_mft dec_crl hex_sha1).
Notation run := (run sig_ok crl_sig_ok dec_tal dec_cert dec_roa dec_mft dec_crl hex_sha1).
Notation anchor := (given_as_anchor dec_cert).
Notation carried := (carried dec_tal dec_cert dec_roa dec_mft dec_crl).
Notation inv_step := (inv_step sig_ok crl_sig_ok dec_tal dec_cert dec_roa dec_mft dec_crl hex_sha1).
Notation ext_step := (ext_step sig_ok crl_sig_ok dec_tal dec_cert dec_roa dec_mft dec_crl hex_sha1).

Definition safe_heap (v : validator) : Prop := forall a x, hobj (v_heap v) a = Some x -> safe_obj x.

(** ** ValidateCertificate *)
Lemma ip_chain_good : forall T v (S : Prop), Inv T v -> (S -> safe_heap v) ->
  forall fuel key chain check inv, (S -> nets_ok check) ->
  (forall a, chain = Some a -> (a < fuel)%nat /\ (a < length (v_heap v))%nat) ->
  good S (ip_chain fuel (v_heap v) (v_valid v) key chain check inv).
Proof.
  intros T v S I SH. induction fuel as [|fuel IH]; intros key chain check inv NO LT;
    destruct chain as [a|]; destruct check as [|i l]; try apply good_ret.
  - destruct (LT a eq_refl). lia.
  - cbn [ip_chain]. destruct (LT a eq_refl) as [L1 L2].
    destruct (v_valid v key) as [u|] eqn:V; [|apply good_ret].
    destruct (inv_obj _ _ _ I _ _ (inv_valid _ _ _ I _ _ V)) as (cc & HO & _).
    apply good_bind; [apply good_deref; now apply hobj_lt in HO|]. intros ur DU. cbv beta.
    destruct (deref_hobj _ _ _ DU) as (HU & _). assert (RU : r_obj ur = OCert cc) by congruence. rewrite RU.
    apply good_bind.
    + apply good_vgo. intros s. apply validate_ip_list_ok; [now apply NO|]. exact (proj1 (SH s _ _ HO)).
    + intros [[vs iv] c] VL. cbv beta iota. apply good_bind; [now apply good_deref|]. intros ar DA. cbv beta.
      destruct (deref_hobj _ _ _ DA) as (_ & HP & _). apply IH.
      * intros s. destruct (validate_ip_list (i :: l) (c_ips cc)) eqn:E; inversion VL; subst.
        eapply nets_ok_check; eauto.
      * intros p RP. rewrite RP in HP. apply (inv_par _ _ _ I) in HP. lia.
Qed.

Lemma as_chain_good : forall T v (S : Prop), Inv T v ->
  forall fuel key chain check inv,
  (forall a, chain = Some a -> (a < fuel)%nat /\ (a < length (v_heap v))%nat) ->
  good S (as_chain fuel (v_heap v) (v_valid v) key chain check inv).
Proof.
  intros T v S I. induction fuel as [|fuel IH]; intros key chain check inv LT;
    destruct chain as [a|]; destruct check as [|i l]; try apply good_ret.
  - destruct (LT a eq_refl). lia.
  - cbn [as_chain]. destruct (LT a eq_refl) as [L1 L2].
    destruct (v_valid v key) as [u|] eqn:V; [|apply good_ret].
    destruct (inv_obj _ _ _ I _ _ (inv_valid _ _ _ I _ _ V)) as (cc & HO & _).
    apply good_bind; [apply good_deref; now apply hobj_lt in HO|]. intros ur DU. cbv beta.
    destruct (deref_hobj _ _ _ DU) as (HU & _). assert (RU : r_obj ur = OCert cc) by congruence. rewrite RU.
    destruct (validate_as_list (i :: l) (c_asns cc)) as [[vs iv] c].
    apply good_bind; [now apply good_deref|]. intros ar DA. cbv beta.
    destruct (deref_hobj _ _ _ DA) as (_ & HP & _). apply IH.
    intros p RP. rewrite RP in HP. apply (inv_par _ _ _ I) in HP. lia.
Qed.

Lemma validate_cert_good : forall T v (S : Prop) c tr, Inv T v -> (S -> safe_heap v) -> (S -> safe_cert c) ->
  good S (validate_cert sig_ok c tr v).
Proof.
  intros T v S c tr I SH SC. unfold validate_cert.
  destruct (negb (time_ok c (v_time v))); [apply good_ret|]. destruct tr; [apply good_ret|].
  destruct (v_valid v (c_aki c)) as [pa|] eqn:V; [|apply good_ret].
  destruct (inv_obj _ _ _ I _ _ (inv_valid _ _ _ I _ _ V)) as (pc & HO & _).
  apply good_bind; [apply good_deref; now apply hobj_lt in HO|]. intros pr DP. cbv beta.
  destruct (deref_hobj _ _ _ DP) as (HU & HP & _). assert (RU : r_obj pr = OCert pc) by congruence. rewrite RU.
  assert (LT : forall a, r_parent pr = Some a -> (a < length (v_heap v))%nat /\ (a < length (v_heap v))%nat).
  { intros a RP. rewrite RP in HP. apply (inv_par _ _ _ I) in HP. apply hobj_lt in HO. lia. }
  destruct (negb (sig_ok pc c)); [apply good_ret|].
  destruct (kin (v_revoked v) (serial_key (c_aki c) (c_serial c))); [apply good_ret|].
  apply good_bind.
  - apply good_vgo. intros s. apply validate_ip_list_ok; [exact (proj1 (SC s))|exact (proj1 (SH s _ _ HO))].
  - intros [[vs iv] chk] VL. cbv beta iota. apply good_bind.
    + apply (ip_chain_good T); auto. intros s.
      destruct (validate_ip_list (c_ips c) (c_ips pc)) eqn:E; inversion VL; subst.
      eapply nets_ok_check; [exact E|exact (proj1 (SC s))].
    + intros [inv'|] _; [|apply good_ret].
      destruct (validate_as_list (c_asns c) (c_asns pc)) as [[avs ainv] achk].
      apply good_bind; [apply (as_chain_good T); auto|]. intros [ainv'|] _; apply good_ret.
Qed.

Lemma add_cert_good : forall T v (S : Prop) c tr, Inv T v -> (S -> safe_heap v) -> (S -> safe_cert c) ->
  good S (add_cert c tr v).
Proof.
  intros T v S c tr I SH SC. unfold Validator.add_cert.
  destruct (kin (v_objects v) (c_ski c)); [apply good_ret|].
  apply good_bind; [apply (validate_cert_good T); auto|]. intros ok _. apply good_ret.
Qed.
Lemma add_roa_good : forall T v (S : Prop) f x, Inv T v -> (S -> safe_heap v) -> (S -> safe_cert (roa_cert x)) ->
  good S (add_roa f x v).
Proof.
  intros T v S f x I SH SC. unfold Validator.add_roa. apply good_bind; [apply (add_cert_good T); auto|].
  intros (v1 & ((va & ps) & a) & er) _. apply good_ret.
Qed.
Lemma add_mft_good : forall T v (S : Prop) f x, Inv T v -> (S -> safe_heap v) -> (S -> safe_cert (mft_cert x)) ->
  good S (add_mft f x v).
Proof.
  intros T v S f x I SH SC. unfold Validator.add_mft. destruct (extract_path_mft (mft_files x)); [|apply good_ret].
  apply good_bind; [apply (add_cert_good T); auto|].
  intros (v1 & ((va & ps) & a) & er) _. apply good_ret.
Qed.

Lemma add_crl_total : forall T v l, Inv T v -> exists v' valid a, add_crl l v = VRet (v', (valid, a)).
Proof.
  intros T v l I. unfold Validator.add_crl.
  set (aki := crl_aki (crl_exts l) []). unfold kin.
  destruct (v_valid v aki) as [va|] eqn:V; [|cbn [vbind]; eauto].
  rewrite (inv_valid _ _ _ I _ _ V).
  destruct (inv_obj _ _ _ I _ _ (inv_valid _ _ _ I _ _ V)) as (pc & HO & _).
  destruct (deref_of_hobj _ _ _ HO) as (r & D & RO). rewrite D. cbn [vbind]. rewrite RO.
  destruct (crl_sig_ok pc l); [|cbn [vbind]; eauto].
  set (w := put_validcrl _ _ _).
  assert (I2 : Inv T w).
  { unfold w. apply (inv_put_validcrl sig_ok _ _ _ _ l); auto.
    - cbn. rewrite hobj_alloc, Nat.eqb_refl. reflexivity.
    - cbn. congruence.
    - apply inv_alloc; auto. cbn. intros p E. inversion E; subst. now apply hobj_lt in HO. }
  destruct (revoke_loop_total sig_ok T aki (crl_serials l) w I2) as (v3 & ->). cbn [vbind]. eauto.
Qed.

(** The file of a resource is not changed by AddCRL. *)
Lemma revoke_loop_heap : forall aki l v v', revoke_loop aki l v = VRet v' -> v_heap v' = v_heap v.
Proof.
  induction l as [|s l IH]; intros v v' H; [inversion H; subst; auto|].
  rewrite revoke_loop_cons in H. vb H. apply IH in H. rewrite H. cbn.
  destruct (revoke_one_spec _ _ _ _ E) as [->|(a & c & _ & _ & _ & X)]; auto.
  apply invalidate_spec in X. destruct X as (D & -> & _). apply drop_keys_heap.
Qed.
Lemma add_crl_parent_file : forall l v v' valid a p r,
  add_crl l v = VRet (v', (valid, a)) -> v_objects v (crl_aki (crl_exts l) []) = Some p ->
  nth_error (v_heap v) p = Some r ->
  exists ra r', nth_error (v_heap v') a = Some ra /\ r_parent ra = Some p /\
    nth_error (v_heap v') p = Some r' /\ r_file r' = r_file r.
Proof.
  intros l v v' valid a p r H O N. apply add_crl_cases in H.
  assert (LP : (p < length (v_heap v))%nat) by (apply nth_error_Some; congruence).
  assert (NA : nth_error (v_heap v ++ [new_res TCrl (Some p) None (OCrl l)]) (length (v_heap v)) = Some (new_res TCrl (Some p) None (OCrl l))).
  { rewrite nth_error_app2 by lia. now rewrite Nat.sub_diag. }
  rewrite O in H.
  destruct H as (-> & [[_ ->]|(_ & p' & pc & v3 & O' & V & HO & _ & R & ->)]).
  - cbn. exists (new_res TCrl (Some p) None (OCrl l)), r. rewrite NA. rewrite nth_error_app1 by lia. auto.
  - inversion O'; subst p'. apply revoke_loop_heap in R. cbn in R. cbn. rewrite R, !nth_heap_upd, NA.
    rewrite nth_error_app1 by lia. rewrite N, Nat.eqb_refl.
    destruct (Nat.eqb_spec (length (v_heap v)) p); [lia|]. cbn.
    exists (new_res TCrl (Some p) None (OCrl l)), (with_child (length (v_heap v)) r). auto.
Qed.

Lemma check_tal_good : forall T v (S : Prop) f c, Inv T v -> (S -> safe_heap v) -> (S -> safe_cert c) -> good S (check_tal f c v).
Proof.
  intros T v S f c I SH SC. unfold check_tal. destruct (f_parent f) as [p|]; [|apply good_ret].
  destruct (is_tal (f_type p)); [|apply good_ret].
  destruct (v_tals v (f_path f)) as [a|] eqn:TA; [|apply good_ret].
  destruct (inv_tal _ _ _ I _ _ TA) as (t & HO).
  destruct (deref_of_hobj _ _ _ HO) as (r & D & RO). rewrite D. cbn [vbind]. rewrite RO.
  apply good_bind; [|intros; apply good_ret]. apply good_vgo. intros s.
  destruct (SC s) as [_ SK]. pose proof (SH s _ _ HO) as ST. cbn [safe_obj] in ST.
  unfold check_certificate. destruct (Z.eqb_spec (t_alg t) (c_alg c)) as [E|]; [|discriminate].
  destruct (Z.eqb_spec (t_alg t) alg_rsa) as [E2|]; [|discriminate].
  destruct (ST E2) as (n & e & ->). rewrite E in E2. destruct (SK E2) as (n' & e' & ->). discriminate.
Qed.

Definition step_safe (o : op) (v : validator) : Prop :=
  safe_heap v /\ Forall safe_obj (carried o) /\ crl_file_ok dec_crl o v.

Lemma step_good : forall T o v, Inv T v -> (forall c, anchor [o] c -> T c) -> good (step_safe o v) (step o v).
Proof.
  intros T o v I TR.
  assert (HS : step_safe o v -> safe_heap v) by (intros [H _]; exact H).
  assert (VF : forall A B S (x : vres (A * B)), good S x -> good S (vfst x)).
  { intros A B S x G. unfold vfst. apply good_bind; auto. intros [a b] _. apply good_ret. }
  destruct o; cbn [Validator.step].
  - apply VF. unfold Validator.add_resource.
    assert (CAR : step_safe (DoResource f data) v -> Forall safe_obj (carried (DoResource f data))) by (intros (_ & H & _); exact H).
    assert (CRO : step_safe (DoResource f data) v -> crl_file_ok dec_crl (DoResource f data) v) by (intros (_ & _ & H); exact H).
    cbn [Safe.carried crl_file_ok] in CAR, CRO.
    destruct (f_type f) eqn:FT; try apply good_ret.
    + destruct (dec_cert data) as [c|] eqn:DC; [|apply good_ret].
      assert (SC : step_safe (DoResource f data) v -> safe_cert c).
      { intros s. specialize (CAR s). inversion CAR; auto. }
      apply good_bind; [apply (check_tal_good T); auto|]. intros [v1|] CT; [|apply good_ret].
      destruct (inv_check_tal sig_ok T _ _ _ _ I CT) as (I1 & _).
      apply good_bind.
      * apply (add_cert_good T); auto. intros s a x HX. apply (HS s a).
        destruct (check_tal_pre _ _ _ _ CT) as ((_ & SS) & _). rewrite <- (proj1 (SS a)). exact HX.
      * intros (v2 & ((va & ps) & a) & er) _. apply good_ret.
    + destruct (dec_mft data) as [m|]; [|apply good_ret]. apply good_bind.
      * apply (add_mft_good T); auto. intros s. specialize (CAR s). inversion CAR; auto.
      * intros (v1 & ((va & ps) & [a|]) & er) _; apply good_ret.
    + destruct (dec_roa data) as [m|]; [|apply good_ret]. apply good_bind.
      * apply (add_roa_good T); auto. intros s. specialize (CAR s). inversion CAR; auto.
      * intros (v1 & (va & a) & er) _; apply good_ret.
    + destruct (dec_crl data) as [l|] eqn:DL; [|apply good_ret].
      destruct (add_crl_total T v l I) as (v1 & va & a & E). rewrite E. cbn [vbind].
      apply good_bind.
      * split; [unfold grandparent_path; destruct (f_parent f) as [p|]; [destruct (f_parent p)|]; discriminate|].
        intros s. destruct (CRO s eq_refl l eq_refl) as ((p & g & E1 & E2) & _).
        unfold grandparent_path. rewrite E1, E2. discriminate.
      * intros want _. apply good_bind.
        -- split.
           ++ unfold parent_file_path, deref. destruct (nth_error (v_heap v1) a) as [r|]; cbn [vbind]; [|discriminate].
              destruct (r_parent r) as [p|]; [|discriminate]. destruct (nth_error (v_heap v1) p) as [r2|]; cbn [vbind]; [|discriminate].
              destruct (r_file r2); discriminate.
           ++ intros s. destruct (CRO s eq_refl l eq_refl) as (_ & p & r & file & O & N & RF).
              destruct (add_crl_parent_file _ _ _ _ _ _ _ E O N) as (ra & r' & NA & RP & NP & RF').
              unfold parent_file_path, deref. rewrite NA. cbn [vbind]. rewrite RP, NP. cbn [vbind]. rewrite RF', RF. discriminate.
        -- intros have _. destruct (beq want have); apply good_ret.
    + destruct (dec_tal data) as [t|]; [|apply good_ret]. cbn [add_tal]. apply good_ret.
  - apply good_ret.
  - apply VF. apply (add_cert_good T); auto. intros (_ & H & _). inversion H; auto.
  - apply VF. apply (add_roa_good T); auto. intros (_ & H & _). inversion H; auto.
  - apply VF. apply (add_mft_good T); auto. intros (_ & H & _). inversion H; auto.
  - apply VF. destruct (add_crl_total T v l I) as (v1 & va & a & ->). apply good_ret.
  - destruct (inv_invalidate_total sig_ok T v k I) as (v' & ->). apply good_ret.
Qed.

(** ** Objects in the heap come from the operations. *)
Definition from (l : list obj) (v v' : validator) : Prop :=
  forall a x, hobj (v_heap v') a = Some x -> hobj (v_heap v) a = Some x \/ In x l.
Lemma from_refl : forall l v, from l v v.
Proof. intros l v a x H. auto. Qed.
Lemma from_heap : forall l v v' w, v_heap w = v_heap v' -> from l v v' -> from l v w.
Proof. intros l v v' w E F a x H. apply F. now rewrite <- E. Qed.
Lemma from_meta : forall l v v' a f, meta f -> from l v v' -> from l v (upd a f v').
Proof.
  intros l v v' a f M F b x H. apply F. cbn in H. rewrite <- H. symmetry. now apply hsim_upd_meta.
Qed.
Lemma from_child : forall l v v' p b, from l v v' -> from l v (upd p (with_child b) v').
Proof. intros l v v' p b F a x H. apply F. cbn in H. now rewrite hobj_child in H. Qed.
Lemma from_alloc : forall l v v' r, In (r_obj r) l -> from l v v' -> from l v (alloc r v').
Proof.
  intros l v v' r IN F a x H. cbn in H. rewrite hobj_alloc in H.
  destruct (Nat.eqb a (length (v_heap v'))); [inversion H; subst; auto|auto].
Qed.

Lemma from_add_cert : forall l T c tr v v' res, Inv T v -> In (OCert c) l ->
  add_cert c tr v = VRet (v', res) -> from l v v'.
Proof.
  intros l T c tr v v' [[[valid ps] a] err] I IN H. destruct (add_cert_cases _ _ _ _ _ _ _ _ _ H) as (-> & [C|C]).
  - destruct C as (_ & _ & _ & _ & ->). now apply from_alloc, from_refl.
  - destruct C as (K & _ & ok & VC & VD & _ & ->).
    assert (PL : forall p, v_objects v (c_aki c) = Some p -> (p < length (v_heap v))%nat).
    { intros p HP. destruct (inv_obj _ _ _ I _ _ HP) as (x & Y & _). now apply hobj_lt in Y. }
    destruct (store_views sig_ok c valid v PL) as (_ & VO & _). intros b x HX. rewrite VO in HX.
    destruct (Nat.eqb b (length (v_heap v))); [inversion HX; subst; auto|auto].
Qed.
Lemma from_add_roa : forall l T f r v v' res, Inv T v -> In (OCert (roa_cert r)) l -> In (ORoa r) l ->
  add_roa f r v = VRet (v', res) -> from l v v'.
Proof.
  intros l T f r v v' res I I1 I2 H. unfold Validator.add_roa in H. vb H. destruct y as (v1 & ((va & ps) & a) & er).
  apply (from_add_cert l T) in E; auto. inversion H; subst; clear H.
  assert (F : from l v (upd a (with_child (length (v_heap (upd a (fun x => with_type TRoaCer (with_file f x)) v1))))
              (alloc (new_res TRoa (Some a) f (ORoa r)) (upd a (fun x => with_type TRoaCer (with_file f x)) v1)))).
  { apply from_child, from_alloc; auto. apply from_meta; auto. apply meta_type_file. }
  destruct (va && validate_entries (roa_entries r) && roa_inner r); exact F.
Qed.
Lemma from_add_mft : forall l T f r v v' res, Inv T v -> In (OCert (mft_cert r)) l -> In (OMft r) l ->
  add_mft f r v = VRet (v', res) -> from l v v'.
Proof.
  intros l T f r v v' res I I1 I2 H. unfold Validator.add_mft in H.
  destruct (extract_path_mft (mft_files r)); [|inversion H; subst; apply from_refl].
  vb H. destruct y as (v1 & ((va & ps) & a) & er).
  apply (from_add_cert l T) in E; auto. inversion H; subst; clear H.
  assert (F : from l v (upd a (with_child (length (v_heap (upd a (fun x => with_type TMftCer (with_file f x)) v1))))
              (alloc (new_res TMft (Some a) f (OMft r)) (upd a (fun x => with_type TMftCer (with_file f x)) v1)))).
  { apply from_child, from_alloc; auto. apply from_meta; auto. apply meta_type_file. }
  destruct (va && mft_inner r); exact F.
Qed.
Lemma from_add_crl : forall l L v v' res, In (OCrl L) l -> add_crl L v = VRet (v', res) -> from l v v'.
Proof.
  intros l L v v' [valid a] IN H. apply add_crl_cases in H.
  destruct H as (-> & [[_ ->]|(_ & p & pc & v3 & O & V & HO & _ & R & ->)]).
  - apply (from_heap l v (alloc (new_res TCrl (v_objects v (crl_aki (crl_exts L) [])) None (OCrl L)) v)); [reflexivity|].
    now apply from_alloc, from_refl.
  - apply revoke_loop_heap in R.
    apply (from_heap l v (upd p (with_child (length (v_heap v))) v3)); [reflexivity|]. apply from_child.
    apply (from_heap l v (alloc (new_res TCrl (v_objects v (crl_aki (crl_exts L) [])) None (OCrl L)) v)); [exact R|].
    now apply from_alloc, from_refl.
Qed.

Lemma from_step : forall T o v v', Inv T v -> step o v = VRet v' -> from (carried o) v v'.
Proof.
  intros T o v v' I H. destruct o; cbn [Validator.step] in H.
  - apply vfst_ret in H. destruct H as (res & H). unfold Validator.add_resource in H. cbn [Safe.carried].
    destruct (f_type f) eqn:FT; try (inversion H; subst; apply from_refl).
    + destruct (dec_cert data) as [c|] eqn:DC; [|inversion H; subst; apply from_refl]. vb H.
      destruct y as [v1|]; [|inversion H; subst; apply from_refl]. vb H. destruct y as (v2 & ((va & ps) & a) & er).
      destruct (inv_check_tal sig_ok T _ _ _ _ I E) as (I1 & _).
      destruct (check_tal_pre _ _ _ _ E) as ((_ & SS) & _).
      assert (F : from [OCert c] v1 v2) by (apply (from_add_cert [OCert c] T) in E0; [exact E0|exact I1|now left]).
      inversion H; subst. intros b x HX.
      destruct (from_meta _ _ _ a _ (meta_file_type TCer (Some f)) F b x HX) as [Y|Y]; auto.
      left. rewrite <- (proj1 (SS b)). exact Y.
    + destruct (dec_mft data) as [m|]; [|inversion H; subst; apply from_refl]. vb H. destruct y as (v1 & ((va & ps) & oa) & er).
      apply (from_add_mft [OCert (mft_cert m); OMft m] T) in E; cbn; auto.
      destruct oa as [a|]; inversion H; subst; auto. intros b x HX. apply (from_meta _ _ _ a _ (meta_file (Some f)) E b x HX).
    + destruct (dec_roa data) as [m|]; [|inversion H; subst; apply from_refl]. vb H. destruct y as (v1 & (va & a) & er).
      apply (from_add_roa [OCert (roa_cert m); ORoa m] T) in E; cbn; auto.
      inversion H; subst; auto. intros b x HX. apply (from_meta _ _ _ a _ (meta_file (Some f)) E b x HX).
    + destruct (dec_crl data) as [l|]; [|inversion H; subst; apply from_refl]. vb H. destruct y as (v1 & va & a).
      apply (from_add_crl [OCrl l]) in E; cbn; auto. vb H. vb H. destruct (beq y y0); inversion H; subst; auto.
      intros b x HX. apply (from_meta _ _ _ a _ (meta_file (Some f)) E b x HX).
    + destruct (dec_tal data) as [t|]; [|inversion H; subst; apply from_refl].
      inversion H; subst. apply from_meta; [apply meta_file|].
      intros b x HX. cbn in HX. rewrite hobj_alloc in HX.
      destruct (Nat.eqb b (length (v_heap v))); [inversion HX; subst; right; now left|auto].
  - inversion H; subst. intros b x HX. cbn in HX. rewrite hobj_alloc in HX.
    destruct (Nat.eqb b (length (v_heap v))); [inversion HX; subst; right; now left|auto].
  - apply vfst_ret in H. destruct H as (res & H). apply (from_add_cert [OCert c] T) in H; [exact H|exact I|now left].
  - apply vfst_ret in H. destruct H as (res & H). apply (from_add_roa [OCert (roa_cert r); ORoa r] T) in H; cbn; auto.
  - apply vfst_ret in H. destruct H as (res & H). apply (from_add_mft [OCert (mft_cert m); OMft m] T) in H; cbn; auto.
  - apply vfst_ret in H. destruct H as (res & H). apply (from_add_crl [OCrl l]) in H; [exact H|now left].
  - apply invalidate_spec in H. destruct H as (D & -> & _). apply (from_heap _ _ v); [apply drop_keys_heap|apply from_refl].
Qed.

Lemma safe_heap_step : forall T o v v', Inv T v -> safe_heap v -> Forall safe_obj (carried o) ->
  step o v = VRet v' -> safe_heap v'.
Proof.
  intros T o v v' I SH F H a x HX. destruct (from_step T _ _ _ I H a x HX) as [Y|Y]; [eauto|].
  now apply (proj1 (Forall_forall _ _) F).
Qed.

(** ** Runs *)
Lemma run_never_fuel : forall T ops v, Inv T v -> (forall c, anchor ops c -> T c) -> run ops v <> VFuel.
Proof.
  intros T. induction ops as [|o ops IH]; intros v I TR; cbn [Validator.run]; [discriminate|].
  assert (TR1 : forall c, anchor [o] c -> T c) by (intros; apply TR, anchor_cons; auto).
  destruct (step_good T o v I TR1) as [NF _].
  destruct (step o v) as [v1| |] eqn:E; cbn [vbind]; [|discriminate|contradiction].
  apply IH; [|intros; apply TR, anchor_tail; auto].
  now destruct (inv_step T _ _ _ I TR1 E).
Qed.

Lemma run_never_panics : forall T ops v, Inv T v -> (forall c, anchor ops c -> T c) -> safe_heap v ->
  Forall (fun o => Forall safe_obj (carried o) /\ no_crl_file o) ops -> exists v', run ops v = VRet v'.
Proof.
  intros T. induction ops as [|o ops IH]; intros v I TR SH F; cbn [Validator.run]; [eauto|].
  inversion F as [|? ? [F1 F2] F3]; subst.
  assert (TR1 : forall c, anchor [o] c -> T c) by (intros; apply TR, anchor_cons; auto).
  assert (SS : step_safe o v).
  { split; auto. split; auto. destruct o; cbn in *; auto. contradiction. }
  destruct (good_exists _ _ _ SS (step_good T o v I TR1)) as (v1 & E). rewrite E. cbn [vbind].
  apply IH; auto.
  - now destruct (inv_step T _ _ _ I TR1 E).
  - intros; apply TR, anchor_tail; auto.
  - apply (safe_heap_step T o v v1); auto.
Qed.

Lemma reach_safe : forall T ops v v', Inv T v -> (forall c, anchor ops c -> T c) -> safe_heap v ->
  Forall (fun o => Forall safe_obj (carried o)) ops -> run ops v = VRet v' -> safe_heap v' /\ Inv T v'.
Proof.
  intros T. induction ops as [|o ops IH]; intros v v' I TR SH F R; cbn [Validator.run] in R.
  - inversion R; subst. auto.
  - vb R. inversion F; subst.
    assert (TR1 : forall c, anchor [o] c -> T c) by (intros; apply TR, anchor_cons; auto).
    destruct (inv_step T _ _ _ I TR1 E) as (I1 & _).
    assert (SY : safe_heap y) by (apply (safe_heap_step T o v y); auto).
    apply (IH y v'); auto. intros; apply TR, anchor_tail; auto.
Qed.

Lemma safe_new : forall now, safe_heap (new_validator now).
Proof. intros now a x H. destruct a; discriminate. Qed.

(** One more operation, CRL files included. *)
Lemma step_never_panics : forall ops now v o, run ops (new_validator now) = VRet v ->
  Forall (fun o => Forall safe_obj (carried o)) (ops ++ [o]) -> crl_file_ok dec_crl o v ->
  exists v', step o v = VRet v'.
Proof.
  intros ops now v o R F CF. apply Forall_app in F. destruct F as [F1 F2]. inversion F2; subst.
  destruct (reach_safe (anchor (ops ++ [o])) ops (new_validator now) v) as (SH & I); auto.
  - apply inv_new.
  - intros; now apply anchor_app_l.
  - apply safe_new.
  - apply (good_exists _ (step_safe o v)).
    + split; auto.
    + apply (step_good (anchor (ops ++ [o]))); auto. intros; now apply anchor_app_r.
Qed.

Lemma fresh_never_panics : forall ops now,
  Forall (fun o => Forall safe_obj (carried o) /\ no_crl_file o) ops ->
  exists v, run ops (new_validator now) = VRet v.
Proof.
  intros ops now F. apply (run_never_panics (anchor ops)); auto; [apply inv_new|apply safe_new].
Qed.
Lemma fresh_never_fuel : forall ops now, run ops (new_validator now) <> VFuel.
Proof. intros ops now. apply (run_never_fuel (anchor ops)); auto. apply inv_new. Qed.
End Panic.
