(** Results of AddResource, and the helpers of the manager. *)
From Coq Require Import Lia.
From Verif.Model Require Import Base NetIP CertRes Roa Str Ber Tal Validator Explore.
From Verif.Spec Require Import Trust Discovery.
From Verif.Proofs Require Import StrProofs HeapProofs Invalidate ValidatorInv ValidatorRun ValidatorMono.

Section Add.
Variable sig_ok : cert -> cert -> bool.
Variable crl_sig_ok : cert -> crl -> bool.
Variable dec_tal : bytes -> option tal.
Variable dec_cert : bytes -> option cert.
Variable dec_roa : bytes -> option roa.
Variable dec_mft : bytes -> option mft.
Variable dec_crl : bytes -> option crl.
Variable hex_sha1 : bytes -> bytes.
Notation add_cert := (add_cert sig_ok).
Notation add_resource := (add_resource sig_ok crl_sig_ok dec_tal dec_cert dec_roa dec_mft dec_crl hex_sha1).
Notation Inv := (Inv sig_ok).

Lemma hobj_upd_meta : forall h a f x, meta f -> hobj (heap_upd h a f) x = hobj h x.
Proof. intros h a f x M. destruct (hsim_upd_meta h a f M) as [_ S]. apply S. Qed.

Notation add_mft := (add_mft sig_ok).

Lemma add_cert_object : forall T c tr v v' valid ps a err, Inv T v ->
  add_cert c tr v = VRet (v', (valid, ps, a, err)) ->
  hobj (v_heap v') a = Some (OCert c) /\ v_objects v' (c_ski c) <> None /\
  (ps = [] /\ valid = false \/ ps = extract_path_cert c).
Proof.
  intros T c tr v v' valid ps a err I H. destruct (add_cert_cases _ _ _ _ _ _ _ _ _ H) as (-> & [C|C]).
  - destruct C as (K & -> & -> & -> & ->). cbn [alloc set_heap v_heap v_objects].
    rewrite hobj_alloc, Nat.eqb_refl. repeat split; auto.
    unfold kin in K. destruct (v_objects v (c_ski c)); discriminate.
  - destruct C as (K & -> & ok & VC & VD & -> & ->).
    assert (PL : forall p, v_objects v (c_aki c) = Some p -> (p < length (v_heap v))%nat).
    { intros p HP. destruct (inv_obj _ _ _ I _ _ HP) as (x & Y & _). now apply hobj_lt in Y. }
    destruct (store_views sig_ok c valid v PL) as (VL & VO & VP & VCH & VOB & _).
    rewrite VO, Nat.eqb_refl, VOB. repeat split; auto. rewrite kset_eq. discriminate.
Qed.

Lemma add_mft_object : forall T f m v v' valid ps oa err, Inv T v ->
  add_mft f m v = VRet (v', (valid, ps, oa, err)) ->
  (oa = None /\ valid = false /\ v' = v) \/
  exists a, oa = Some a /\ hobj (v_heap v') a = Some (OMft m) /\ extract_path_mft (mft_files m) = Some ps.
Proof.
  intros T f m v v' valid ps oa err I H. unfold Validator.add_mft in H.
  destruct (extract_path_mft (mft_files m)) as [paths|]; [|inversion H; subst; left; auto].
  vb H. destruct y as (v1 & ((va & ps1) & a) & er). right.
  inversion H; subst. exists (length (v_heap (upd a (fun x => with_type TMftCer (with_file f x)) v1))).
  split; [reflexivity|]. split; [|reflexivity].
  destruct (va && mft_inner m); cbn [put_mft put_validmft upd alloc set_heap v_heap]; rewrite hobj_child, hobj_alloc, Nat.eqb_refl; reflexivity.
Qed.

(** What AddResource returns, by file type. *)
Definition result_of (f : pkifile) (d : bytes) (v' : validator) (valid : bool) (subs : list fdesc) (oa : option addr) : Prop :=
  (oa = None /\ valid = false /\ subs = []) \/
  exists a, oa = Some a /\
    match f_type f with
    | TCer => exists c, dec_cert d = Some c /\ hobj (v_heap v') a = Some (OCert c) /\
                v_objects v' (c_ski c) <> None /\ (subs = [] /\ valid = false \/ subs = extract_path_cert c)
    | TMft => exists m, dec_mft d = Some m /\ hobj (v_heap v') a = Some (OMft m) /\ extract_path_mft (mft_files m) = Some subs
    | TTal => exists t, dec_tal d = Some t /\ hobj (v_heap v') a = Some (OTal t) /\
                subs = [mkFile [] (get_rsync_uri hex_sha1 t) TCer true None] /\ v_tals v' (get_rsync_uri hex_sha1 t) = Some a
    | _ => subs = []
    end.

Lemma add_resource_result : forall T f d v v' valid subs oa err, Inv T v ->
  add_resource f d v = VRet (v', (valid, subs, oa, err)) -> result_of f d v' valid subs oa.
Proof.
  intros T f d v v' valid subs oa err I H. unfold result_of. unfold Validator.add_resource in H.
  destruct (f_type f) eqn:FT; try (inversion H; subst; left; auto; fail).
  - destruct (dec_cert d) as [c|]; [|inversion H; subst; left; auto]. vb H.
    destruct y as [v1|]; [|inversion H; subst; left; auto]. vb H. destruct y as (v2 & ((va & ps) & a) & er).
    destruct (inv_check_tal sig_ok T _ _ _ _ I E) as (I1 & _).
    destruct (add_cert_object T _ _ _ _ _ _ _ _ I1 E0) as (A & B & C).
    inversion H; subst. right. exists a. split; auto. exists c. split; auto.
    cbn [put_path upd set_heap v_heap v_objects]. rewrite hobj_upd_meta by apply meta_file_type. auto.
  - destruct (dec_mft d) as [m|]; [|inversion H; subst; left; auto]. vb H. destruct y as (v1 & ((va & ps) & oa') & er).
    destruct (add_mft_object T _ _ _ _ _ _ _ _ I E) as [(-> & -> & ->)|(a & -> & B & C)].
    + inversion H; subst. left. auto.
    + inversion H; subst. right. exists a. split; auto. exists m. split; auto. split; auto.
      cbn [put_path upd set_heap v_heap]. rewrite hobj_upd_meta by apply meta_file. exact B.
  - destruct (dec_roa d) as [m|]; [|inversion H; subst; left; auto]. vb H. destruct y as (v1 & (va & a) & er).
    inversion H; subst; auto. right. eauto.
  - destruct (dec_crl d) as [l|]; [|inversion H; subst; left; auto]. vb H. destruct y as (v1 & va & a).
    vb H. vb H. destruct (beq y y0); inversion H; subst; auto. right. eauto.
  - destruct (dec_tal d) as [t|]; [|inversion H; subst; left; auto]. cbn [add_tal] in H. inversion H; subst. right.
    exists (length (v_heap v)). split; auto. exists t. split; auto.
    cbn [put_tal upd alloc set_heap v_heap v_tals]. rewrite hobj_upd_meta by apply meta_file.
    rewrite hobj_alloc, Nat.eqb_refl, kset_eq. auto.
Qed.
End Add.
