(** Where the certificates known to the validator come from, and what removes
    one from the valid ones. *)
From Coq Require Import String.
From Coq Require Import List ZArith Lia Bool.
From Verif.Model Require Import Base NetIP CertRes Roa Str Ber Tal Validator Explore.
From Verif.Spec Require Import Trust Discovery Resources HonestSpec.
From Verif.Proofs Require Import StrProofs CertProofs HeapProofs Invalidate BerProofs ValidatorInv ValidatorRun ValidatorMono ValidatorAccept ValidatorFacts
  ValidatorMisc ValidatorPanic ExploreFacts ExploreInv ExploreThm RevokeProofs.
Import ListNotations.

Section Honest.
Variable sig_ok : cert -> cert -> bool.
Variable crl_sig_ok : cert -> crl -> bool.
Variable dec_tal : bytes -> option tal.
Variable dec_cert : bytes -> option cert.
Variable dec_roa : bytes -> option roa.
Variable dec_mft : bytes -> option mft.
Variable dec_crl : bytes -> option crl.
Variable hex_sha1 : bytes -> bytes.
Variable disk : bytes -> option bytes.
Variable sha256 : bytes -> bytes.
Variable clock : nat -> Z * Z.
Variable strict_manifests : bool.
Variable strict_hash : bool.
Variable P : list pkifile.
Variable now : Z.
Notation run := (run sig_ok crl_sig_ok dec_tal dec_cert dec_roa dec_mft dec_crl hex_sha1).
Notation add_resource := (add_resource sig_ok crl_sig_ok dec_tal dec_cert dec_roa dec_mft dec_crl hex_sha1).
Notation add_cert := (add_cert sig_ok).
Notation add_roa := (add_roa sig_ok).
Notation add_mft := (add_mft sig_ok).
Notation add_crl := (add_crl crl_sig_ok).
Notation holds := (holds disk).
Notation op_from := (op_from disk sha256 strict_hash).
Notation Inv := (Inv sig_ok).
Notation bears := (bears dec_cert dec_roa dec_mft disk).
Notation effective := (effective crl_sig_ok dec_cert dec_roa dec_mft disk P).
Notation clear := (clear crl_sig_ok dec_cert dec_roa dec_mft dec_crl disk sha256 clock strict_manifests strict_hash P now).
Notation honest := (honest sig_ok crl_sig_ok dec_tal dec_cert dec_roa dec_mft dec_crl hex_sha1 disk sha256 clock strict_manifests strict_hash P now).

Lemma contents_fun : forall A (dec : bytes -> option A) f x y, contents disk dec f x -> contents disk dec f y -> x = y.
Proof.
  intros A dec f x y (r1 & d1 & H1 & D1) (r2 & d2 & H2 & D2). destruct (holds_fun _ _ _ _ _ _ H1 H2) as (<- & <-). congruence.
Qed.

Lemma bears_fun : forall f c c', bears f c -> bears f c' -> c = c'.
Proof.
  intros f c c' H H'. unfold HonestSpec.bears in H, H'. destruct (f_type f); try contradiction.
  - eapply contents_fun; eauto.
  - destruct H as (m & A & <- & _), H' as (m' & A' & <- & _). f_equal. eapply contents_fun; eauto.
  - destruct H as (m & A & <-), H' as (m' & A' & <-). f_equal. eapply contents_fun; eauto.
Qed.

(** The names of a manifest that ExtractPathManifest takes. *)
Lemma plain_extract : forall m, plain_names m <-> extract_path_mft (mft_files m) <> None.
Proof.
  intros m. unfold plain_names. induction (mft_files m) as [|(n & h) l IH]; cbn [extract_path_mft].
  - split; [discriminate|contradiction].
  - assert (B : bad_path n = false <->
      ~ (exists a b, n = a ++ str "../"%string ++ b) /\ ~ (exists a b, n = a ++ str "..\"%string ++ b)).
    { unfold bad_path. rewrite orb_false_iff, <- !contains_spec, <- !not_true_iff_false. reflexivity. }
    destruct (bad_path n).
    + split; [|congruence]. intros H. exfalso. destruct B as (_ & B). specialize (B (H n h (or_introl eq_refl))). discriminate.
    + split.
      * intros H. destruct (extract_path_mft l); [discriminate|]. exfalso. apply IH; auto.
        intros n0 h0 I0. apply (H n0 h0). now right.
      * intros H n0 h0 [E|I0].
        { inversion E; subst. now apply B. }
        { apply IH in I0; auto. intros X. rewrite X in H. congruence. }
Qed.

(** * Where known certificates come from *)
Definition known_from (Q : list pkifile) (v : validator) : Prop :=
  forall k a, v_objects v k = Some a -> exists f c, In f Q /\ bears f c /\ hobj (v_heap v) a = Some (OCert c).
Definition marked_from (v : validator) : Prop :=
  forall k, kin (v_revoked v) k = true -> exists f l n, In f P /\ f_type f = TCrl /\ contents disk dec_crl f l /\ effective l /\
    In n (crl_serials l) /\ k = crl_aki (crl_exts l) [] ++ dec n.

Lemma objects_cert : forall c tr v v' valid ps a err k b, add_cert c tr v = VRet (v', (valid, ps, a, err)) ->
  v_objects v' k = Some b -> v_objects v k = Some b \/ (k = c_ski c /\ b = a).
Proof.
  intros c tr v v' valid ps a err k b H O. destruct (add_cert_cases _ _ _ _ _ _ _ _ _ H) as (-> & [C|C]).
  - destruct C as (_ & _ & _ & _ & ->). auto.
  - destruct C as (_ & _ & ok & _ & _ & _ & ->). unfold store_cert in O. cbn [put_object v_objects] in O.
    apply kset_some in O. destruct O as [(-> & ->)|(_ & O)]; auto. left.
    destruct valid, (v_objects v (c_aki c)); exact O.
Qed.

Lemma objects_roa : forall f r v v' res k b, add_roa f r v = VRet (v', res) -> v_objects v' k = Some b ->
  exists v1 valid ps a err, add_cert (roa_cert r) false v = VRet (v1, (valid, ps, a, err)) /\ v_objects v1 k = Some b.
Proof.
  intros f r v v' res k b H O. unfold Validator.add_roa in H. vb H. destruct y as (v1 & ((va & ps) & a) & er).
  exists v1, va, ps, a, er. split; auto. inversion H; subst v' res. clear H. cbn [put_roa v_objects] in O.
  destruct (va && validate_entries (roa_entries r) && roa_inner r); exact O.
Qed.

Lemma objects_mft : forall f r v v' res k b, add_mft f r v = VRet (v', res) -> v_objects v' k = Some b ->
  v' = v \/ plain_names r /\ exists v1 valid ps a err, add_cert (mft_cert r) false v = VRet (v1, (valid, ps, a, err)) /\ v_objects v1 k = Some b.
Proof.
  intros f r v v' res k b H O. unfold Validator.add_mft in H.
  destruct (extract_path_mft (mft_files r)) eqn:EX; [|inversion H; auto].
  right. split; [apply plain_extract; congruence|]. vb H. destruct y as (v1 & ((va & ps) & a) & er).
  exists v1, va, ps, a, er. split; auto. inversion H; subst v' res. clear H. cbn [put_mft v_objects] in O.
  destruct (va && mft_inner r); exact O.
Qed.

Lemma known_resource : forall Q f raw d v v' res, Inv (fun _ => True) v -> known_from Q v -> In f Q -> holds f raw d ->
  add_resource f d v = VRet (v', res) -> known_from Q v'.
Proof.
  intros Q f raw d v v' res I K IF HD H k b O.
  assert (X : ext v v') by (apply (ext_add_resource sig_ok crl_sig_ok dec_tal dec_cert dec_roa dec_mft dec_crl hex_sha1 (fun _ => True) f d v v' res); auto).
  assert (OLD : v_objects v k = Some b -> exists g c, In g Q /\ bears g c /\ hobj (v_heap v') b = Some (OCert c)).
  { intros A. destruct (K _ _ A) as (g & c & G1 & G2 & G3). exists g, c. split; auto. split; auto. exact (ext_obj _ _ X _ _ G3). }
  assert (NEW : forall c v0 v1 tr valid ps a err, add_cert c tr v0 = VRet (v1, (valid, ps, a, err)) -> bears f c ->
    Inv (fun _ => True) v0 -> ext v1 v' -> v_objects v1 k = Some b -> (v_objects v0 k = Some b -> v_objects v k = Some b) ->
    exists g c, In g Q /\ bears g c /\ hobj (v_heap v') b = Some (OCert c)).
  { intros c v0 v1 tr valid ps a err A B I0 X1 O1 BACK. destruct (objects_cert _ _ _ _ _ _ _ _ _ _ A O1) as [O2|(-> & ->)]; auto.
    exists f, c. split; auto. split; auto. apply (ext_obj _ _ X1).
    destruct (add_cert_object sig_ok _ _ _ _ _ _ _ _ _ I0 A) as (HO & _). exact HO. }
  assert (H0 := H). unfold Validator.add_resource in H. destruct (f_type f) eqn:FT; try (inversion H; subst; auto; fail).
  - (* certificate *)
    destruct (dec_cert d) as [c|] eqn:DC; [|inversion H; subst; auto]. vb H. destruct y as [v1|]; [|inversion H; subst; auto].
    vb H. destruct y as (v2 & ((va & ps) & a) & er). inversion H; subst v' res. clear H.
    cbn [put_path upd set_heap v_objects v_heap] in *.
    destruct (inv_check_tal sig_ok _ _ _ _ _ I E) as (I1 & _).
    destruct (check_tal_pre _ _ _ _ E) as (_ & _ & EO & _).
    eapply NEW; [exact E0| |exact I1| |exact O|now rewrite EO].
    + unfold HonestSpec.bears. rewrite FT. exists raw, d. auto.
    + eapply ext_trans; [apply ext_upd_meta, meta_file_type|apply ext_put_path].
  - (* manifest *)
    destruct (dec_mft d) as [m|] eqn:DC; [|inversion H; subst; auto]. vb H. destruct y as (v1 & ((va & ps) & oa) & er).
    assert (O1 : v_objects v1 k = Some b) by (destruct oa; inversion H; subst; exact O).
    destruct (objects_mft _ _ _ _ _ _ _ E O1) as [->|(PN & v2 & va2 & ps2 & a2 & er2 & A & O2)]; [auto|].
    destruct (objects_cert _ _ _ _ _ _ _ _ _ _ A O2) as [O3|(-> & ->)]; auto.
    exists f, (mft_cert m). split; auto. split.
    { unfold HonestSpec.bears. rewrite FT. exists m. split; [exists raw, d; auto|auto]. }
    destruct (inv_obj _ _ _ (proj1 (inv_add_resource sig_ok crl_sig_ok dec_tal dec_cert dec_roa dec_mft dec_crl hex_sha1 (fun _ => True) v f d v' res I (fun _ _ _ _ => Logic.I) H0)) _ _ O) as (c' & HO & _).
    destruct (add_cert_object sig_ok _ _ _ _ _ _ _ _ _ I A) as (HA & _).
    unfold Validator.add_mft in E. apply plain_extract in PN. destruct (extract_path_mft (mft_files m)); [|congruence].
    vb E. destruct y as (v3 & ((va3 & ps3) & a3) & er3). injection A as -> -> -> -> ->.
    inversion E; subst v1 va ps oa er. inversion H; subst v' res. clear E H.
    cbn [put_path upd set_heap v_heap]. rewrite hobj_upd_meta by apply meta_file.
    destruct (va2 && mft_inner m); cbn [put_mft put_validmft upd alloc set_heap v_heap]; rewrite hobj_child, hobj_alloc.
    all: assert (L := hobj_lt _ _ _ HA).
    all: rewrite length_heap_upd; destruct (Nat.eqb_spec a2 (length (v_heap v2))); [lia|].
    all: rewrite hobj_upd_meta by apply meta_type_file; exact HA.
  - (* ROA *)
    destruct (dec_roa d) as [m|] eqn:DC; [|inversion H; subst; auto]. vb H. destruct y as (v1 & (va & a) & er).
    inversion H; subst v' res. clear H. cbn [put_path upd set_heap v_objects v_heap] in *.
    destruct (objects_roa _ _ _ _ _ _ _ E O) as (v2 & va2 & ps2 & a2 & er2 & A & O2).
    destruct (objects_cert _ _ _ _ _ _ _ _ _ _ A O2) as [O3|(-> & ->)]; auto.
    exists f, (roa_cert m). split; auto. split.
    { unfold HonestSpec.bears. rewrite FT. exists m. split; [exists raw, d; auto|auto]. }
    destruct (add_cert_object sig_ok _ _ _ _ _ _ _ _ _ I A) as (HA & _).
    rewrite hobj_upd_meta by apply meta_file.
    unfold Validator.add_roa in E. vb E. destruct y as (v3 & ((va3 & ps3) & a3) & er3). injection A as -> -> -> -> ->.
    inversion E; subst v1 va a er. clear E.
    destruct (va2 && validate_entries (roa_entries m) && roa_inner m); cbn [put_roa put_validroa upd alloc set_heap v_heap]; rewrite hobj_child, hobj_alloc.
    all: assert (L := hobj_lt _ _ _ HA).
    all: rewrite length_heap_upd; destruct (Nat.eqb_spec a2 (length (v_heap v2))); [lia|].
    all: rewrite hobj_upd_meta by apply meta_type_file; exact HA.
  - (* CRL *)
    destruct (dec_crl d) as [l|] eqn:DC; [|inversion H; subst; auto]. vb H. destruct y as (v1 & va & a). vb H. vb H.
    apply OLD. assert (O1 : v_objects v1 k = Some b) by (destruct (beq y y0); inversion H; subst; exact O).
    apply add_crl_cases in E. destruct E as (-> & [[_ ->]|(_ & p & pc & v3 & OO & VV & HO & _ & R & ->)]); [exact O1|].
    cbn [put_crl upd set_heap v_objects] in O1.
    assert (SB : same_base (put_validcrl (crl_aki (crl_exts l) []) (length (v_heap v))
              (alloc (new_res TCrl (v_objects v (crl_aki (crl_exts l) [])) None (OCrl l)) v)) v3).
    { refine (proj2 (inv_revoke_loop sig_ok (fun _ => True) _ _ _ _ _ R)).
      apply (inv_put_validcrl sig_ok _ _ _ _ l); auto.
      - cbn. rewrite hobj_alloc, Nat.eqb_refl. reflexivity.
      - now apply inv_crl_alloc. }
    destruct SB as (_ & SO & _). rewrite SO in O1. exact O1.
  - (* TAL *)
    destruct (dec_tal d) as [t|] eqn:DC; [|inversion H; subst; auto]. cbn [add_tal] in H. inversion H; subst. auto.
Qed.

(** * Where the marks of revoked certificates come from *)
Lemma revoked_cert : forall c tr v v' res, add_cert c tr v = VRet (v', res) -> v_revoked v' = v_revoked v.
Proof.
  intros c tr v v' [[[valid ps] a] err] H. destruct (add_cert_cases _ _ _ _ _ _ _ _ _ H) as (-> & [C|C]).
  - destruct C as (_ & _ & _ & _ & ->). reflexivity.
  - destruct C as (_ & _ & ok & _ & _ & _ & ->). unfold store_cert. destruct valid, (v_objects v (c_aki c)); reflexivity.
Qed.

Lemma list_inv : forall T v l, Inv T v -> v_valid v (crl_aki (crl_exts l) []) <> None ->
  Inv T (put_validcrl (crl_aki (crl_exts l) []) (length (v_heap v))
           (alloc (new_res TCrl (v_objects v (crl_aki (crl_exts l) [])) None (OCrl l)) v)).
Proof.
  intros T v l I VV. apply (inv_put_validcrl sig_ok _ _ _ _ l); auto.
  - cbn. rewrite hobj_alloc, Nat.eqb_refl. reflexivity.
  - now apply inv_crl_alloc.
Qed.

(** A list that is accepted is signed by a certificate among the files. *)
Lemma list_effective : forall Q v l p pc, incl Q P -> Inv (fun _ => True) v -> known_from Q v ->
  v_objects v (crl_aki (crl_exts l) []) = Some p -> hobj (v_heap v) p = Some (OCert pc) -> crl_sig_ok pc l = true -> effective l.
Proof.
  intros Q v l p pc S I K O HO SG. destruct (K _ _ O) as (g & c & G1 & G2 & G3).
  assert (c = pc) by congruence. subst c. exists g, pc. split; auto. split; auto. split; auto.
  destruct (inv_obj _ _ _ I _ _ O) as (c2 & A & B). assert (c2 = pc) by congruence. now subst c2.
Qed.

Lemma marked_resource : forall Q f raw d v v' res, incl Q P -> Inv (fun _ => True) v -> known_from Q v -> marked_from v ->
  In f Q -> holds f raw d -> add_resource f d v = VRet (v', res) -> marked_from v'.
Proof.
  intros Q f raw d v v' res S I K M IF HD H.
  assert (SAME : v_revoked v' = v_revoked v -> marked_from v').
  { intros E k X. rewrite E in X. auto. }
  unfold Validator.add_resource in H. destruct (f_type f) eqn:FT; try (inversion H; subst; auto; fail).
  - destruct (dec_cert d) as [c|] eqn:DC; [|inversion H; subst; auto]. vb H. destruct y as [v1|]; [|inversion H; subst; auto].
    vb H. destruct y as (v2 & ((va & ps) & a) & er). apply SAME. inversion H; subst. cbn [put_path upd set_heap v_revoked].
    rewrite (revoked_cert _ _ _ _ _ E0). now destruct (check_tal_pre _ _ _ _ E) as (_ & _ & _ & -> & _).
  - destruct (dec_mft d) as [m|] eqn:DC; [|inversion H; subst; auto]. vb H. destruct y as (v1 & ((va & ps) & oa) & er).
    apply SAME. assert (v_revoked v' = v_revoked v1) as -> by (destruct oa; inversion H; subst; reflexivity). clear H.
    unfold Validator.add_mft in E. destruct (extract_path_mft (mft_files m)); [|inversion E; subst; auto].
    vb E. destruct y as (v3 & ((va3 & ps3) & a3) & er3). rewrite <- (revoked_cert _ _ _ _ _ E0). inversion E; subst.
    destruct (va3 && mft_inner m); reflexivity.
  - destruct (dec_roa d) as [m|] eqn:DC; [|inversion H; subst; auto]. vb H. destruct y as (v1 & (va & a) & er).
    apply SAME. inversion H; subst. cbn [put_path upd set_heap v_revoked]. clear H.
    unfold Validator.add_roa in E. vb E. destruct y as (v3 & ((va3 & ps3) & a3) & er3). rewrite <- (revoked_cert _ _ _ _ _ E0). inversion E; subst.
    destruct (va3 && validate_entries (roa_entries m) && roa_inner m); reflexivity.
  - destruct (dec_crl d) as [l|] eqn:DC; [|inversion H; subst; auto]. vb H. destruct y as (v1 & va & a). vb H. vb H.
    assert (EV : v_revoked v' = v_revoked v1) by (destruct (beq y y0); inversion H; subst; reflexivity). clear H E0 E1.
    apply add_crl_cases in E. destruct E as (-> & [[_ ->]|(_ & p & pc & v3 & OO & VV & HO & SG & R & ->)]); [now apply SAME|].
    intros k X. rewrite EV in X. cbn [put_crl upd set_heap v_revoked] in X.
    apply (revoke_loop_marks _ _ _ _ R) in X. destruct X as [X|(n & N1 & ->)]; [now apply M|].
    exists f, l, n. split; auto. split; auto. split; [exists raw, d; auto|]. split; [|split; auto].
    eapply list_effective; eauto.
  - destruct (dec_tal d) as [t|] eqn:DC; [|inversion H; subst; auto]. apply SAME. cbn [add_tal] in H. inversion H; subst. reflexivity.
Qed.

(** Both hold in every state of an exploration. *)
Lemma from_invals : forall Q ops v v', Forall inval_op ops -> run ops v = VRet v' ->
  known_from Q v /\ marked_from v -> known_from Q v' /\ marked_from v'.
Proof.
  intros Q. induction ops as [|o ops IH]; intros v v' F R KM; cbn [Validator.run] in R; [inversion R; subst; auto|].
  inversion F as [|x y FO FR]; subst. destruct o; try contradiction. vb R. apply (IH y v'); auto.
  cbn [Validator.step] in E. apply invalidate_spec in E. destruct E as (D & -> & _). destruct KM as (K & M). split.
  - intros k' a O. rewrite drop_keys_objects in O. rewrite drop_keys_heap. exact (K _ _ O).
  - intros k' X. rewrite drop_keys_revoked in X. exact (M _ X).
Qed.

Lemma from_run : forall Q ops v v', incl Q P -> Inv (fun _ => True) v -> Forall (op_from Q) ops -> run ops v = VRet v' ->
  known_from Q v /\ marked_from v -> known_from Q v' /\ marked_from v'.
Proof.
  intros Q. induction ops as [|o ops IH]; intros v v' S I F R KM; cbn [Validator.run] in R; [inversion R; subst; auto|].
  inversion F as [|x y FO FR]; subst. vb R.
  assert (R1 : run [o] v = VRet y) by (cbn [Validator.run]; rewrite E; reflexivity).
  destruct (ext_any _ _ _ _ _ _ _ _ _ _ _ I R1) as (_ & I1). apply (IH y v'); auto.
  destruct o; try contradiction.
  - destruct FO as (IF & raw & HD & _). cbn [Validator.step] in E. apply vfst_ret in E. destruct E as (res & E).
    destruct KM as (K & M). split.
    { exact (known_resource Q _ raw _ _ _ _ I K IF HD E). }
    { exact (marked_resource Q _ raw _ _ _ _ S I K M IF HD E). }
  - apply (from_invals Q [DoInvalidate k] v y); auto.
Qed.

Lemma from_start : forall Q ops v, incl Q P -> Forall (op_from Q) ops -> run ops (new_validator now) = VRet v ->
  known_from Q v /\ marked_from v.
Proof.
  intros Q ops v S F R. apply (from_run Q ops (new_validator now) v); auto; [apply inv_new|]. split.
  - intros k a O. discriminate O.
  - intros k X. discriminate X.
Qed.

(** * What the removal of an object leaves *)
Definition kept (v v' : validator) : Prop :=
  forall f c, honest f c ->
    (forall a, v_valid v (c_ski c) = Some a -> v_valid v' (c_ski c) = Some a) /\
    (forall a, v_validroa v (c_ski c) = Some a -> v_validroa v' (c_ski c) = Some a).

Lemma kept_refl : forall v, kept v v.
Proof. intros v f c _. auto. Qed.
Lemma kept_trans : forall a b c, kept a b -> kept b c -> kept a c.
Proof. intros a b c A B f x H. destruct (A f x H), (B f x H). auto. Qed.
Lemma kept_same : forall v v', v_valid v' = v_valid v -> v_validroa v' = v_validroa v -> kept v v'.
Proof. intros v v' E1 E2 f c _. rewrite E1, E2. auto. Qed.

Lemma honest_in : forall f c, honest f c -> In f P /\ bears f c /\ clear f c.
Proof. intros f c H. destruct H; auto. Qed.

(** The known certificate with the identifier of an honest one is that one. *)
Lemma honest_known : forall Q v f c a c', incl Q P -> known_from Q v -> honest f c -> v_objects v (c_ski c) = Some a ->
  hobj (v_heap v) a = Some (OCert c') -> c_ski c' = c_ski c -> c' = c /\ In f Q.
Proof.
  intros Q v f c a c' S K H O HO E. destruct (K _ _ O) as (g & c2 & G1 & G2 & G3). assert (c2 = c') by congruence. subst c2.
  destruct (honest_in _ _ H) as (FP & FB & FC). assert (g = f) by (apply (cl_key _ _ _ _ _ _ _ _ _ _ _ _ _ _ FC) with c'; auto).
  subst g. split; auto. eapply bears_fun; eauto.
Qed.

Lemma honest_below : forall Q v k, incl Q P -> Inv (fun _ => True) v -> known_from Q v ->
  (forall f c, honest f c -> c_ski c <> k) -> forall k', below v k k' -> forall f c, honest f c -> c_ski c <> k'.
Proof.
  intros Q v k S I K NK k' B. induction B as [|k1 k2 B IH C]; auto. intros f c H E.
  destruct C as (a & r & b & rb & O & N & IN & NB & ID).
  assert (HC : In b (hch (v_heap v) a)) by (unfold hch; rewrite N; exact IN).
  assert (HB : hobj (v_heap v) b = Some (r_obj rb)) by (unfold hobj; rewrite NB; reflexivity).
  destruct (inv_obj _ _ _ I _ _ O) as (pc & PH & PK).
  destruct (r_obj rb) as [c'|x|x|l|t]; cbn [identifier] in ID; inversion ID; subst k2; clear ID.
  - destruct (inv_chcert _ _ _ I _ _ _ HC HB) as (OA & OK & _).
    destruct (honest_known Q v f c b c') as (-> & FQ); auto; [congruence|].
    destruct (inv_obj _ _ _ I _ _ OA) as (pc2 & PH2 & PK2). assert (pc2 = pc) by congruence. subst pc2.
    destruct H as [f p c n e FP FT FB PP PT LK AL KE NI CL|f c g gc FP FB U HG AK SG W CL].
    + destruct (K _ _ OA) as (g & c2 & G1 & G2 & G3). assert (c2 = pc) by congruence. subst c2.
      assert (g = f) by (apply (NI g pc); auto). subst g. assert (pc = c) by (eapply bears_fun; eauto). subst pc.
      assert (L := inv_chlt _ _ _ I _ _ HC). rewrite <- PK2 in OA. rewrite OA in OK. inversion OK. lia.
    + apply (IH g gc HG). congruence.
  - apply (inv_chroa _ _ _ I _ _ _ HC) in HB. rewrite HB in PH. inversion PH; subst pc. apply (IH f c H). congruence.
  - apply (inv_chmft _ _ _ I _ _ _ HC) in HB. rewrite HB in PH. inversion PH; subst pc. apply (IH f c H). congruence.
Qed.

Lemma kept_invalidate : forall Q v v' k, incl Q P -> Inv (fun _ => True) v -> known_from Q v ->
  (forall f c, honest f c -> c_ski c <> k) -> invalidate k v = VRet v' -> kept v v'.
Proof.
  intros Q v v' k S I K NK H f c HF. apply invalidate_spec in H. destruct H as (D & -> & B).
  assert (ND : ~ In (c_ski c) D).
  { intros X. apply B in X. exact (honest_below Q v k S I K NK _ X f c HF eq_refl). }
  destruct (drop_keys_valid D v (c_ski c)) as (_ & E1). destruct (drop_keys_validroa D v (c_ski c)) as (_ & E2).
  rewrite (E1 ND), (E2 ND). auto.
Qed.

(** A list removes nothing honest. *)
Lemma kept_revoke : forall Q aki L l v v', incl Q P -> Inv (fun _ => True) v -> known_from Q v -> incl l L ->
  (forall f c n, honest f c -> In n L -> aki ++ dec n <> c_aki c ++ dec (c_serial c)) ->
  revoke_loop aki l v = VRet v' -> kept v v'.
Proof.
  intros Q aki L. induction l as [|n l IH]; intros v v' S I K IL NR H; [inversion H; subst; apply kept_refl|].
  rewrite revoke_loop_cons in H. vb H. rename y into v1.
  assert (A : kept v v1).
  { destruct (revoke_one_spec _ _ _ _ E) as [->|(a & c & V & HO & SE & IV)]; [apply kept_refl|].
    apply (kept_invalidate Q _ _ (c_ski c)); auto. intros f c' HF E'.
    destruct (inv_serial _ _ _ I _ _ V) as (c2 & HO2 & KE & OB). assert (c2 = c) by congruence. subst c2.
    rewrite <- E' in OB. destruct (honest_known Q v f c' a c) as (-> & _); auto.
    apply (NR f c' n HF); [apply IL; left; auto|]. exact KE. }
  assert (I1 : Inv (fun _ => True) v1 /\ known_from Q v1).
  { destruct (revoke_one_spec _ _ _ _ E) as [->|(a & c & _ & _ & _ & IV)]; auto. split; [eapply inv_invalidate; eauto|].
    apply invalidate_spec in IV. destruct IV as (D & -> & _). intros k b O. rewrite drop_keys_objects in O. rewrite drop_keys_heap. exact (K _ _ O). }
  eapply kept_trans; [exact A|]. eapply kept_trans; [|eapply IH; [exact S| | | |exact NR|exact H]].
  - apply kept_same; reflexivity.
  - apply inv_put_revoked. apply I1.
  - intros k b O. apply (proj2 I1 _ _ O).
  - intros x X. apply IL. now right.
Qed.
End Honest.
