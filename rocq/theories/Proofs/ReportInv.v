(** Every resource in the state of the validator knows the file it was read
    from. *)
From Coq Require Import List ZArith Lia Bool.
From Verif.Model Require Import Base NetIP CertRes Roa Str Ber Tal Validator Explore.
From Verif.Spec Require Import Trust Discovery CtSpec.
From Verif.Proofs Require Import StrProofs HeapProofs Invalidate BerProofs ValidatorInv ValidatorRun ValidatorMono ValidatorFacts
  ValidatorMisc ValidatorPanic ExploreFacts ExploreInv ExploreThm CtProofs.
Import ListNotations.
Open Scope Z_scope.

Section Objects.
Variable sig_ok : cert -> cert -> bool.
Variable crl_sig_ok : cert -> crl -> bool.
Variable dec_tal : bytes -> option tal.
Variable dec_cert : bytes -> option cert.
Variable dec_roa : bytes -> option roa.
Variable dec_mft : bytes -> option mft.
Variable dec_crl : bytes -> option crl.
Variable hex_sha1 : bytes -> bytes.
Notation run := (run sig_ok crl_sig_ok dec_tal dec_cert dec_roa dec_mft dec_crl hex_sha1).
Notation step := (step sig_ok crl_sig_ok dec_tal dec_cert dec_roa dec_mft dec_crl hex_sha1).
Notation add_resource := (add_resource sig_ok crl_sig_ok dec_tal dec_cert dec_roa dec_mft dec_crl hex_sha1).
Notation brings := (brings dec_cert dec_roa dec_mft).

(** The type given to the resource of a certificate by the type of the file. *)
Definition cert_type (t : ftype) : ftype :=
  match t with TRoa => TRoaCer | TMft => TMftCer | _ => t end.
Definition res_of (f : pkifile) (d : bytes) (r : resource) : Prop :=
  match r_obj r with
  | OCert c => r_type r = cert_type (f_type f) /\ brings f d c
  | ORoa x => f_type f = TRoa /\ dec_roa d = Some x
  | OMft m => f_type f = TMft /\ dec_mft d = Some m
  | _ => False
  end.
Definition res_from (ops : list op) (r : resource) : Prop :=
  match r_obj r with
  | OCrl _ | OTal _ => True
  | _ => exists f d, In (DoResource f d) ops /\ r_file r = Some f /\ res_of f d r
  end.
Definition all_from (ops : list op) (h : list resource) : Prop :=
  forall a r, nth_error h a = Some r -> res_from ops r.

Lemma all_alloc : forall ops h r, all_from ops h -> res_from ops r -> all_from ops (h ++ [r]).
Proof. intros ops h r H R a x N. apply nth_app1 in N. destruct N as [N|[_ ->]]; eauto. Qed.
Lemma all_upd : forall ops h a g, (forall r, nth_error h a = Some r -> res_from ops r -> res_from ops (g r)) ->
  all_from ops h -> all_from ops (heap_upd h a g).
Proof. intros ops h a g G H x r N. apply nth_upd in N. destruct N as [[_ N]|[-> (y & N & ->)]]; eauto. Qed.
Lemma all_child : forall ops h a b, all_from ops h -> all_from ops (heap_upd h a (with_child b)).
Proof. intros ops h a b H. apply all_upd; auto. Qed.

Lemma add_cert_all : forall ops c tr v v' valid ps a err, all_from ops (v_heap v) ->
  add_cert sig_ok c tr v = VRet (v', (valid, ps, a, err)) ->
  (a < length (v_heap v'))%nat /\
  forall x r, nth_error (v_heap v') x = Some r -> (x = a /\ r_obj r = OCert c) \/ (x <> a /\ res_from ops r).
Proof.
  intros ops c tr v v' valid ps a err H E. destruct (add_cert_cases _ _ _ _ _ _ _ _ _ E) as (-> & C).
  assert (A : forall par x r, nth_error (v_heap v ++ [new_res TUnknown par None (OCert c)]) x = Some r ->
    (x = length (v_heap v) /\ r_obj r = OCert c) \/ (x <> length (v_heap v) /\ res_from ops r)).
  { intros par x r N. apply nth_app1 in N. destruct N as [N|[-> ->]]; [|left; auto]. right. split; [|eauto].
    assert (x < length (v_heap v))%nat by (apply nth_error_Some; congruence). lia. }
  assert (B : forall p par x r, nth_error (heap_upd (v_heap v ++ [new_res TUnknown par None (OCert c)]) p (with_child (length (v_heap v)))) x = Some r ->
    (x = length (v_heap v) /\ r_obj r = OCert c) \/ (x <> length (v_heap v) /\ res_from ops r)).
  { intros p par x r N. apply nth_upd in N. destruct N as [[_ N]|[-> (y & N & ->)]]; [eauto|].
    destruct (A _ _ _ N) as [[? ?]|[? ?]]; [left|right]; auto. }
  destruct C as [(_ & _ & _ & _ & ->)|(_ & _ & ok & _ & _ & _ & ->)].
  - split; [cbn; rewrite app_length; cbn; lia|]. intros x r N. cbn in N. eauto.
  - unfold store_cert. split.
    + destruct (v_objects v (c_aki c)); destruct valid; cbn; rewrite ?length_heap_upd, app_length; cbn; lia.
    + intros x r N. destruct (v_objects v (c_aki c)) as [p|]; destruct valid; cbn in N; eauto.
Qed.

(** The resource of the certificate inside a signed object, and of the object. *)
Lemma signed_all : forall ops f d c tr v v1 valid ps a err t o, In (DoResource f d) ops -> all_from ops (v_heap v) ->
  add_cert sig_ok c tr v = VRet (v1, (valid, ps, a, err)) ->
  t = cert_type (f_type f) -> brings f d c ->
  (forall r, r_obj r = o -> r_file r = Some f -> res_from ops r) ->
  (forall c', o <> OCert c') ->
  all_from ops (heap_upd (heap_upd (heap_upd (v_heap v1) a (fun x => with_type t (with_file (Some f) x)) ++
     [new_res (f_type f) (Some a) (Some f) o]) a (with_child (length (v_heap v1)))) (length (v_heap v1)) (with_file (Some f))).
Proof.
  intros ops f d c tr v v1 valid ps a err t o I H AC -> BR RO NC.
  destruct (add_cert_all _ _ _ _ _ _ _ _ _ H AC) as [L K].
  assert (H2 : all_from ops (heap_upd (v_heap v1) a (fun x => with_type (cert_type (f_type f)) (with_file (Some f) x)))).
  { intros x r N. apply nth_upd in N. destruct N as [[NE N]|[-> (y & N & ->)]].
    + destruct (K _ _ N) as [[? _]|[_ ?]]; [contradiction|assumption].
    + destruct (K _ _ N) as [[_ O]|[? _]]; [|congruence]. unfold res_from. cbn. rewrite O. exists f, d.
      split; [assumption|]. split; [reflexivity|]. unfold res_of. cbn. rewrite O. split; [reflexivity|assumption]. }
  apply all_upd; [|apply all_child, all_alloc; [exact H2|]].
  - intros r N _. apply nth_upd in N. destruct N as [[_ N]|[E _]].
    + rewrite nth_error_app2 in N by (rewrite length_heap_upd; lia). rewrite length_heap_upd, Nat.sub_diag in N. cbn in N.
      injection N as <-. apply RO; reflexivity.
    + lia.
  - apply RO; reflexivity.
Qed.

Lemma add_resource_all : forall ops f d v v' res, In (DoResource f d) ops -> all_from ops (v_heap v) ->
  add_resource f d v = VRet (v', res) -> all_from ops (v_heap v').
Proof.
  intros ops f d v v' res I H E. unfold Validator.add_resource in E.
  destruct (f_type f) eqn:FT; try (injection E as <- <-; assumption).
  - destruct (dec_cert d) as [c|] eqn:DC; [|injection E as <- <-; assumption].
    destruct (check_tal f c v) as [ov| |] eqn:CT; cbn [vbind] in E; try discriminate.
    destruct ov as [v1|]; [|injection E as <- <-; assumption].
    assert (H1 : all_from ops (v_heap v1)).
    { unfold check_tal in CT. destruct (f_parent f) as [p|]; [|injection CT as <-; assumption].
      destruct (is_tal (f_type p)); [|injection CT as <-; assumption].
      destruct (v_tals v (f_path f)) as [a|]; [|injection CT as <-; assumption].
      destruct (deref (v_heap v) a) as [r| |]; cbn [vbind] in CT; try discriminate. destruct (r_obj r); try discriminate.
      destruct (vgo _) as [ok| |]; cbn [vbind] in CT; try discriminate. destruct ok; [|discriminate]. injection CT as <-.
      cbn. apply all_upd; auto. }
    destruct (add_cert sig_ok c (fd_trust (f_desc f)) v1) as [[v2 [[[va ps] a] er]]| |] eqn:AC; cbn [vbind] in E; try discriminate.
    injection E as <- <-. destruct (add_cert_all _ _ _ _ _ _ _ _ _ H1 AC) as [L K].
    cbn. intros x r N. apply nth_upd in N. destruct N as [[NE N]|[-> (y & N & ->)]].
    + destruct (K _ _ N) as [[? _]|[_ ?]]; [contradiction|assumption].
    + destruct (K _ _ N) as [[_ O]|[? _]]; [|congruence]. unfold res_from. cbn. rewrite O. exists f, d.
      split; [assumption|]. split; [reflexivity|]. unfold res_of. cbn. rewrite O, FT. split; [reflexivity|].
      unfold CtSpec.brings. now rewrite FT.
  - destruct (dec_mft d) as [m|] eqn:DC; [|injection E as <- <-; assumption].
    unfold add_mft in E. destruct (extract_path_mft (mft_files m)) as [paths|]; cbn [vbind] in E.
    2:{ injection E as <- <-. assumption. }
    destruct (add_cert sig_ok (mft_cert m) false v) as [[v1 [[[va ps] a] er]]| |] eqn:AC; cbn [vbind] in E; try discriminate.
    injection E as <- <-.
    pose proof (signed_all ops f d (mft_cert m) false v v1 va ps a er TMftCer (OMft m) I H AC) as G. rewrite FT in G.
    specialize (G eq_refl). destruct (va && mft_inner m); cbn; rewrite ?length_heap_upd; apply G;
      try (unfold CtSpec.brings; rewrite FT; eauto); try discriminate;
      intros r O F; unfold res_from; rewrite O; exists f, d; unfold res_of; rewrite O; auto.
  - destruct (dec_roa d) as [m|] eqn:DC; [|injection E as <- <-; assumption].
    unfold add_roa in E.
    destruct (add_cert sig_ok (roa_cert m) false v) as [[v1 [[[va ps] a] er]]| |] eqn:AC; cbn [vbind] in E; try discriminate.
    injection E as <- <-.
    pose proof (signed_all ops f d (roa_cert m) false v v1 va ps a er TRoaCer (ORoa m) I H AC) as G. rewrite FT in G.
    specialize (G eq_refl). destruct (va && validate_entries (roa_entries m) && roa_inner m); cbn; rewrite ?length_heap_upd; apply G;
      try (unfold CtSpec.brings; rewrite FT; eauto); try discriminate;
      intros r O F; unfold res_from; rewrite O; exists f, d; unfold res_of; rewrite O; auto.
  - destruct (dec_crl d) as [l|]; [|injection E as <- <-; assumption].
    destruct (add_crl crl_sig_ok l v) as [[v1 [va a]]| |] eqn:AC; cbn [vbind] in E; try discriminate.
    destruct (add_crl_cases _ _ _ _ _ _ AC) as (-> & C).
    assert (H1 : all_from ops (v_heap v1) /\ forall r, nth_error (v_heap v1) (length (v_heap v)) = Some r -> exists l, r_obj r = OCrl l).
    { assert (A : all_from ops (v_heap v ++ [new_res TCrl (v_objects v (crl_aki (crl_exts l) [])) None (OCrl l)])).
      { apply all_alloc; [assumption|exact Logic.I]. }
      assert (B : forall r, nth_error (v_heap v ++ [new_res TCrl (v_objects v (crl_aki (crl_exts l) [])) None (OCrl l)]) (length (v_heap v)) = Some r ->
        exists l, r_obj r = OCrl l).
      { intros r N. rewrite nth_error_app2, Nat.sub_diag in N by lia. injection N as <-. exists l. reflexivity. }
      destruct C as [(_ & ->)|(_ & p & pc & v3 & _ & _ & _ & _ & R & ->)].
      - cbn. split; assumption.
      - apply revoke_loop_heap in R. cbn in R. cbn. rewrite R. split; [now apply all_child|].
        intros r N. apply nth_upd in N. destruct N as [[_ N]|[_ (y & N & ->)]]; [eauto|]. destruct (B _ N) as (l' & O). exists l'. exact O. }
    destruct H1 as [H1 H2].
    destruct (grandparent_path f) as [want| |]; cbn [vbind] in E; try discriminate.
    destruct (parent_file_path v1 (length (v_heap v))) as [have| |]; cbn [vbind] in E; try discriminate.
    destruct (beq want have); injection E as <- <-; [|assumption].
    cbn. apply all_upd; [|assumption]. intros r N _. destruct (H2 _ N) as (l' & O). unfold res_from. cbn. now rewrite O.
  - destruct (dec_tal d) as [t|]; [|injection E as <- <-; assumption]. cbn in E. injection E as <- <-.
    cbn. apply all_upd; [|apply all_alloc; [assumption|exact Logic.I]].
    intros r N _. rewrite nth_error_app2, Nat.sub_diag in N by lia. injection N as <-. exact Logic.I.
Qed.

Lemma run_all : forall all ops v v', Forall reads_files ops -> (forall o, In o ops -> In o all) ->
  all_from all (v_heap v) -> run ops v = VRet v' -> all_from all (v_heap v').
Proof.
  intros all. induction ops as [|o ops IH]; intros v v' F I H E; cbn [Validator.run] in E.
  - injection E as <-. assumption.
  - apply Forall_cons_iff in F. destruct F as [Fo F].
    destruct (step o v) as [v1| |] eqn:S; cbn [vbind] in E; try discriminate.
    apply (IH v1 v' F); auto; [intros x X; apply I; now right|].
    destruct o; try destruct Fo; cbn [Validator.step] in S.
    + apply vfst_ret in S. destruct S as (res & S). eapply add_resource_all; eauto. apply I. now left.
    + now rewrite (invalidate_heap _ _ _ S).
Qed.
End Objects.

Section Explored.
Variable sig_ok : cert -> cert -> bool.
Variable crl_sig_ok : cert -> crl -> bool.
Variable dec_tal : bytes -> option tal.
Variable dec_cert : bytes -> option cert.
Variable dec_roa : bytes -> option roa.
Variable dec_mft : bytes -> option mft.
Variable dec_crl : bytes -> option crl.
Variable hex_sha1 : bytes -> bytes.
Variable disk : bytes -> option bytes.
Variable synced : bytes -> bool.
Variable sha256 : bytes -> bytes.
Variable clock : nat -> Z * Z.
Variable strict_manifests : bool.
Variable strict_hash : bool.
Variable add_invalid : bool.
Variable init : list fdesc.
Notation explore_iter := (explore_iter sig_ok crl_sig_ok dec_tal dec_cert dec_roa dec_mft dec_crl hex_sha1 disk synced sha256 clock strict_manifests strict_hash add_invalid).

(** In an explored state: file, octets and decoded object of a resource. *)
Lemma explored_res : forall now P s a r, explores explore_iter (init_mgr now init) P s ->
  nth_error (v_heap (m_v s)) a = Some r ->
  match r_obj r with
  | OCrl _ | OTal _ => True
  | _ => exists f raw d, In f P /\ Discovery.holds disk f raw d /\ r_file r = Some f /\ res_of dec_cert dec_roa dec_mft f d r
  end.
Proof.
  intros now P s a r H N. destruct (explored_run _ _ _ _ _ _ _ _ _ _ _ _ _ _ _ _ _ _ _ H) as (ops & R & F).
  assert (A : all_from dec_cert dec_roa dec_mft ops (v_heap (m_v s))).
  { eapply run_all; [| | |exact R]; [|auto|intros x y Z; cbn in Z; destruct x; discriminate].
    apply Forall_forall. intros x X. specialize (F _ X). destruct x; cbn; auto. }
  specialize (A a r N). unfold res_from in A.
  destruct (r_obj r) eqn:O; auto; destruct A as (f & d & D & RF & B); destruct (F _ D) as (FP & raw & HD & _); exists f, raw, d; auto.
Qed.
End Explored.
