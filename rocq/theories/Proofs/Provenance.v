(** Every object in the state of the validator was read from a file. *)
From Coq Require Import List ZArith Lia Bool.
From Verif.Model Require Import Base NetIP CertRes Roa Str Ber Tal Validator Explore.
From Verif.Spec Require Import Trust Discovery CtSpec.
From Verif.Proofs Require Import StrProofs HeapProofs Invalidate BerProofs ValidatorInv ValidatorRun ValidatorMono ValidatorFacts
  ValidatorMisc ValidatorPanic ExploreFacts ExploreInv ExploreThm CtProofs.
Import ListNotations.
Open Scope Z_scope.

Lemma objs_upd : forall h a g, (forall r, r_obj (g r) = r_obj r) -> map r_obj (heap_upd h a g) = map r_obj h.
Proof.
  induction h as [|r h IH]; intros [|a] g G; cbn; auto; now rewrite ?G, ?IH.
Qed.

Section Objects.
Variable sig_ok : cert -> cert -> bool.
Variable crl_sig_ok : cert -> crl -> bool.
Variable dec_tal : bytes -> option tal.
Variable dec_cert : bytes -> option cert.
Variable dec_roa : bytes -> option roa.
Variable dec_mft : bytes -> option mft.
Variable dec_crl : bytes -> option crl.
Variable hex_sha1 : bytes -> bytes.
Notation run := (run sig_ok crl_sig_ok dec_tal dec_cert dec_roa dec_mft dec_crl hex_sha1).
Notation step := (step sig_ok crl_sig_ok dec_tal dec_cert dec_roa dec_mft dec_crl hex_sha1).
Notation add_resource := (add_resource sig_ok crl_sig_ok dec_tal dec_cert dec_roa dec_mft dec_crl hex_sha1).
Notation brings := (brings dec_cert dec_roa dec_mft).

Definition read_from (ops : list op) (o : obj) : Prop :=
  exists f d, In (DoResource f d) ops /\
  match o with
  | OCert c => brings f d c
  | ORoa x => f_type f = TRoa /\ dec_roa d = Some x
  | OMft m => f_type f = TMft /\ dec_mft d = Some m
  | OCrl l => f_type f = TCrl /\ dec_crl d = Some l
  | OTal t => f_type f = TTal /\ dec_tal d = Some t
  end.

Lemma add_cert_objs : forall c tr v v' res, add_cert sig_ok c tr v = VRet (v', res) ->
  map r_obj (v_heap v') = map r_obj (v_heap v) ++ [OCert c].
Proof.
  intros c tr v v' (((va & ps) & a) & er) E. destruct (add_cert_cases _ _ _ _ _ _ _ _ _ E) as (-> & C).
  destruct C as [(_ & _ & _ & _ & ->)|(_ & _ & ok & _ & _ & _ & ->)].
  - cbn. now rewrite map_app.
  - unfold store_cert. destruct (v_objects v (c_aki c)); destruct va; cbn; rewrite ?objs_upd by reflexivity; now rewrite map_app.
Qed.

Lemma add_resource_objs : forall ops f d v v' res, In (DoResource f d) ops -> Forall (read_from ops) (map r_obj (v_heap v)) ->
  add_resource f d v = VRet (v', res) -> Forall (read_from ops) (map r_obj (v_heap v')).
Proof.
  intros ops f d v v' res I H E. unfold Validator.add_resource in E.
  destruct (f_type f) eqn:FT; try (injection E as <- <-; assumption).
  - destruct (dec_cert d) as [c|] eqn:DC; [|injection E as <- <-; assumption].
    destruct (check_tal f c v) as [ov| |] eqn:CT; cbn [vbind] in E; try discriminate.
    destruct ov as [v1|]; [|injection E as <- <-; assumption].
    assert (H1 : map r_obj (v_heap v1) = map r_obj (v_heap v)).
    { unfold check_tal in CT. destruct (f_parent f) as [p|]; [|injection CT as <-; reflexivity].
      destruct (is_tal (f_type p)); [|injection CT as <-; reflexivity].
      destruct (v_tals v (f_path f)) as [a|]; [|injection CT as <-; reflexivity].
      destruct (deref (v_heap v) a) as [r| |]; cbn [vbind] in CT; try discriminate. destruct (r_obj r); try discriminate.
      destruct (vgo _) as [ok| |]; cbn [vbind] in CT; try discriminate. destruct ok; [|discriminate]. injection CT as <-.
      cbn. now rewrite objs_upd. }
    destruct (add_cert sig_ok c (fd_trust (f_desc f)) v1) as [[v2 [[[va ps] a] er]]| |] eqn:AC; cbn [vbind] in E; try discriminate.
    injection E as <- <-. cbn. rewrite objs_upd by reflexivity. rewrite (add_cert_objs _ _ _ _ _ AC), H1.
    apply Forall_app. split; auto. repeat constructor. exists f, d. split; auto. unfold CtSpec.brings. now rewrite FT.
  - destruct (dec_mft d) as [m|] eqn:DC; [|injection E as <- <-; assumption].
    unfold add_mft in E. destruct (extract_path_mft (mft_files m)) as [paths|]; cbn [vbind] in E.
    2:{ injection E as <- <-. assumption. }
    destruct (add_cert sig_ok (mft_cert m) false v) as [[v1 [[[va ps] a] er]]| |] eqn:AC; cbn [vbind] in E; try discriminate.
    injection E as <- <-.
    assert (G : Forall (read_from ops) (map r_obj (v_heap v1) ++ [OMft m])).
    { rewrite (add_cert_objs _ _ _ _ _ AC). rewrite <- app_assoc. apply Forall_app. split; auto. repeat constructor.
      - exists f, d. split; auto. unfold CtSpec.brings. rewrite FT. eauto.
      - exists f, d. auto. }
    destruct (va && mft_inner m); cbn; rewrite ?objs_upd by reflexivity; rewrite map_app; rewrite ?objs_upd by reflexivity; exact G.
  - destruct (dec_roa d) as [m|] eqn:DC; [|injection E as <- <-; assumption].
    unfold add_roa in E.
    destruct (add_cert sig_ok (roa_cert m) false v) as [[v1 [[[va ps] a] er]]| |] eqn:AC; cbn [vbind] in E; try discriminate.
    injection E as <- <-.
    assert (G : Forall (read_from ops) (map r_obj (v_heap v1) ++ [ORoa m])).
    { rewrite (add_cert_objs _ _ _ _ _ AC). rewrite <- app_assoc. apply Forall_app. split; auto. repeat constructor.
      - exists f, d. split; auto. unfold CtSpec.brings. rewrite FT. eauto.
      - exists f, d. auto. }
    destruct (va && validate_entries (roa_entries m) && roa_inner m); cbn; rewrite ?objs_upd by reflexivity; rewrite map_app;
      rewrite ?objs_upd by reflexivity; exact G.
  - destruct (dec_crl d) as [l|] eqn:DC; [|injection E as <- <-; assumption].
    destruct (add_crl crl_sig_ok l v) as [[v1 [va a]]| |] eqn:AC; cbn [vbind] in E; try discriminate.
    destruct (add_crl_cases _ _ _ _ _ _ AC) as (-> & C).
    assert (H1 : map r_obj (v_heap v1) = map r_obj (v_heap v) ++ [OCrl l]).
    { destruct C as [(_ & ->)|(_ & p & pc & v3 & _ & _ & _ & _ & R & ->)].
      - cbn. now rewrite map_app.
      - apply revoke_loop_heap in R. cbn in R. cbn. rewrite R, objs_upd by reflexivity. now rewrite map_app. }
    assert (H2 : Forall (read_from ops) (map r_obj (v_heap v1))).
    { rewrite H1. apply Forall_app. split; auto. repeat constructor. exists f, d. auto. }
    destruct (grandparent_path f) as [want| |]; cbn [vbind] in E; try discriminate.
    destruct (parent_file_path v1 (length (v_heap v))) as [have| |]; cbn [vbind] in E; try discriminate.
    destruct (beq want have); injection E as <- <-; [|assumption].
    cbn. now rewrite objs_upd.
  - destruct (dec_tal d) as [t|] eqn:DC; [|injection E as <- <-; assumption]. cbn in E. injection E as <- <-.
    cbn. rewrite objs_upd by reflexivity. rewrite map_app. apply Forall_app. split; auto. repeat constructor. exists f, d. cbn. auto.
Qed.

Lemma run_objs : forall all ops v v', Forall reads_files ops -> (forall o, In o ops -> In o all) ->
  Forall (read_from all) (map r_obj (v_heap v)) -> run ops v = VRet v' -> Forall (read_from all) (map r_obj (v_heap v')).
Proof.
  intros all. induction ops as [|o ops IH]; intros v v' F I H E; cbn [Validator.run] in E.
  - injection E as <-. assumption.
  - apply Forall_cons_iff in F. destruct F as [Fo F].
    destruct (step o v) as [v1| |] eqn:S; cbn [vbind] in E; try discriminate.
    apply (IH v1 v' F); auto; [intros x X; apply I; now right|].
    destruct o; try destruct Fo; cbn [Validator.step] in S.
    + apply vfst_ret in S. destruct S as (res & S). eapply add_resource_objs; eauto. apply I. now left.
    + now rewrite (invalidate_heap _ _ _ S).
Qed.
End Objects.

Section Explored.
Variable sig_ok : cert -> cert -> bool.
Variable crl_sig_ok : cert -> crl -> bool.
Variable dec_tal : bytes -> option tal.
Variable dec_cert : bytes -> option cert.
Variable dec_roa : bytes -> option roa.
Variable dec_mft : bytes -> option mft.
Variable dec_crl : bytes -> option crl.
Variable hex_sha1 : bytes -> bytes.
Variable disk : bytes -> option bytes.
Variable synced : bytes -> bool.
Variable sha256 : bytes -> bytes.
Variable clock : nat -> Z * Z.
Variable strict_manifests : bool.
Variable strict_hash : bool.
Variable add_invalid : bool.
Variable init : list fdesc.
Notation explore_iter := (explore_iter sig_ok crl_sig_ok dec_tal dec_cert dec_roa dec_mft dec_crl hex_sha1 disk synced sha256 clock strict_manifests strict_hash add_invalid).
Notation holds := (holds disk).
Notation hash_ok := (hash_ok sha256 strict_hash).
Notation minv_reach := (minv_reach sig_ok crl_sig_ok dec_tal dec_cert dec_roa dec_mft dec_crl hex_sha1 disk synced sha256 clock strict_manifests strict_hash add_invalid init).

Lemma explored_objs : forall now P s o, explores explore_iter (init_mgr now init) P s ->
  In o (map r_obj (v_heap (m_v s))) ->
  exists f raw d, In f P /\ holds f raw d /\ hash_ok f raw /\
    match o with
    | OCert c => brings dec_cert dec_roa dec_mft f d c
    | ORoa x => f_type f = TRoa /\ dec_roa d = Some x
    | OMft m => f_type f = TMft /\ dec_mft d = Some m
    | OCrl l => f_type f = TCrl /\ dec_crl d = Some l
    | OTal t => f_type f = TTal /\ dec_tal d = Some t
    end.
Proof.
  intros now P s o H I. destruct (explored_run _ _ _ _ _ _ _ _ _ _ _ _ _ _ _ _ _ _ _ H) as (ops & R & F).
  assert (A : Forall (read_from dec_tal dec_cert dec_roa dec_mft dec_crl ops) (map r_obj (v_heap (m_v s)))).
  { eapply run_objs; [| | |exact R]; [|auto|constructor].
    apply Forall_forall. intros x X. specialize (F _ X). destruct x; cbn; auto. }
  rewrite Forall_forall in A. destruct (A _ I) as (f & d & D & B). destruct (F _ D) as (FP & raw & HD & HK).
  exists f, raw, d. auto.
Qed.

(** A file that was looked at is an initial one or was found in another. *)
Lemma explored_found : forall now P s f, explores explore_iter (init_mgr now init) P s -> In f P ->
  (f_parent f = None /\ In (f_desc f) init) \/
  exists p, f_parent f = Some p /\ In p P /\ child dec_tal dec_cert dec_mft hex_sha1 disk sha256 strict_hash add_invalid p f.
Proof.
  intros now P s f H FP. destruct (minv_reach _ _ _ H) as (T & M).
  assert (FT : In f T) by (apply (mi_in _ _ _ _ _ _ _ _ _ _ _ _ _ _ _ _ _ _ _ M), in_or_app; auto).
  destruct (f_parent f) as [p|] eqn:E.
  - right. exists p. split; auto. split.
    + apply (mi_par _ _ _ _ _ _ _ _ _ _ _ _ _ _ _ _ _ _ _ M _ _ FT E).
    + exact (mi_child _ _ _ _ _ _ _ _ _ _ _ _ _ _ _ _ _ _ _ M _ _ FT E).
  - left. split; auto. exact (mi_root _ _ _ _ _ _ _ _ _ _ _ _ _ _ _ _ _ _ _ M _ FT E).
Qed.

(** A ROA file: its manifest lists it. *)
Lemma explored_roa : forall now P s f, explores explore_iter (init_mgr now init) P s -> In f P -> f_type f = TRoa ->
  (forall x, In x init -> fd_type x = TTal) ->
  exists p raw d m h, f_parent f = Some p /\ In p P /\ f_type p = TMft /\ holds p raw d /\ hash_ok p raw /\ dec_mft d = Some m /\
    In (f_path f, h) (mft_files m) /\ fd_hash (f_desc f) = Some h /\ (add_invalid = false -> mft_inner m = true).
Proof.
  intros now P s f H FP FT IT. destruct (explored_found _ _ _ _ H FP) as [(_ & R)|(p & PA & PP & raw & d & HD & HK & C)].
  - apply IT in R. unfold f_type in FT. congruence.
  - destruct (f_type p) eqn:PT; try contradiction.
    + destruct C as (c & DC & I). exfalso. unfold extract_path_cert in I. apply in_app_or in I. unfold f_type in FT. destruct I as [I|I].
      * apply in_map_iff in I. destruct I as (x & E & _). rewrite <- E in FT. discriminate.
      * destruct (last_sia is_sia_mft (c_sia c) None); [|contradiction]. destruct I as [E|[]]. rewrite <- E in FT. discriminate.
    + destruct C as (m & name & h & DM & I & E & IN). exists p, raw, d, m, h. unfold f_path. rewrite E. cbn. auto 15.
    + destruct C as (t & _ & E). unfold f_type in FT. rewrite E in FT. discriminate.
Qed.
End Explored.
