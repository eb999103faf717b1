(** Proofs about the texts and tags of errors. *)
From Coq Require Import Lia String Permutation.
From Verif.Model Require Import Base NetIP CertRes Roa Str TalText NetText Ber Tal Validator Explore ErrReport ErrText.
From Verif.Spec Require Import Resources Trust ErrReportSpec ErrTextSpec.
From Verif.Proofs Require Import StrProofs CertProofs.
Open Scope Z_scope.

(** The errors as they are made, before files are noted in them. *)
Definition shown_ip (i : ipinfo) : Prop := i <> INet None /\ forall f, i <> INull f.
Inductive made : cerr -> Prop :=
| md_validity c t : made (err_validity c t)
| md_parent c t : made (err_parent c t)
| md_revocation c : made (err_revocation c)
| md_resource c l m : Forall shown_ip l -> made (err_resource c l m)
| md_conflict c o : made (err_conflict c o)
| md_manifest c o f : made (err_manifest c o f)
| md_crl c o f : made (err_crl c o f).
Inductive fresh : err -> Prop :=
| fr_plain t : fresh (ErrPlain t)
| fr_cert e : made e -> fresh (ErrCert e)
| fr_file t : fresh (ErrFile (err_file t))
| fr_wrap e : made e -> ce_innerfile e = None -> fresh (wrap (ErrCert e))
| fr_wrap_plain t : fresh (wrap (ErrPlain t)).
Definition sent (e : err) : Prop :=
  (exists f sk b, fresh b /\ e = add_info f sk b) \/
  (exists f d have want, fd_hash (f_desc f) = Some want /\ have <> want /\ e = add_info f (Some (d, have)) (err_hash have want)).
Definition osent (o : option err) : Prop := forall e, o = Some e -> sent e.

(** *** Elements that were compared have a text *)

Lemma validate_shown : forall l parent v iv c, validate_ip_list l parent = Ret (v, iv, c) ->
  Forall (fun i => i <> INet None) l /\ Forall shown_ip iv /\ Forall shown_ip c.
Proof.
  induction l as [|i l IH]; intros parent v iv c H; cbn [validate_ip_list] in H.
  - inversion H; subst. repeat split; constructor.
  - destruct (ip_get_range i) as [((mn & mx) & cp)|] eqn:G; cbn [gbind] in H; [|discriminate].
    assert (N : i <> INet None) by (intros ->; discriminate).
    assert (S : cp = false -> shown_ip i).
    { intros ->. split; auto. intros f ->. discriminate. }
    destruct cp.
    + destruct (validate_ip_list l parent) as [((v1 & iv1) & c1)|] eqn:V; cbn [gbind] in H; [|discriminate]. inversion H; subst.
      destruct (IH _ _ _ _ V) as (A & B & C). repeat split; auto.
    + destruct (is_ip_range_in parent mn mx) as [(b & ck)|]; cbn [gbind] in H; [|discriminate].
      destruct (validate_ip_list l parent) as [((v1 & iv1) & c1)|] eqn:V; cbn [gbind] in H; [|discriminate].
      destruct (IH _ _ _ _ V) as (A & B & C). specialize (S eq_refl).
      destruct b; [|destruct ck]; inversion H; subst; repeat split; auto.
Qed.

Lemma chain_shown : forall fuel h valid key chain check inv inv', ip_chain fuel h valid key chain check inv = VRet (Some inv') ->
  Forall shown_ip check -> Forall shown_ip inv -> Forall shown_ip inv'.
Proof.
  induction fuel as [|fuel IH]; intros h valid key chain check inv inv' H C I; cbn [ip_chain] in H.
  - destruct chain; [destruct check|]; try discriminate; inversion H; subst; auto.
  - destruct chain as [a|]; [|inversion H; subst; auto]. destruct check as [|i0 ck0]; [inversion H; subst; auto|].
    destruct (valid key) as [u|]; [|discriminate]. destruct (deref h u) as [ur| |]; cbn [vbind] in H; try discriminate.
    destruct (r_obj ur); try discriminate.
    destruct (validate_ip_list (i0 :: ck0) (c_ips c)) as [((v1 & iv1) & c1)|] eqn:V; cbn [vgo vbind] in H; [|discriminate].
    destruct (deref h a) as [ar| |]; cbn [vbind] in H; try discriminate.
    destruct (validate_shown _ _ _ _ _ V) as (_ & B & D).
    eapply IH; eauto. apply Forall_app; auto.
Qed.

Section Errors.
Variable sig_ok : cert -> cert -> bool.
Variable crl_sig_ok : cert -> crl -> bool.
Variable dec_tal : bytes -> option tal.
Variable dec_cert : bytes -> option cert.
Variable dec_roa : bytes -> option roa.
Variable dec_mft : bytes -> option mft.
Variable dec_crl : bytes -> option crl.
Variable hex_sha1 : bytes -> bytes.
Variable disk : bytes -> option bytes.
Variable synced : bytes -> bool.
Variable sha256 : bytes -> bytes.
Variable clock : nat -> Z * Z.
Variable strict_manifests : bool.
Variable strict_hash : bool.
Variable add_invalid : bool.
Variable nil_text : go bytes.
Variable time_text : Z -> bytes.
Variable sig_text : cert -> cert -> bytes.
Variable dec_text : ftype -> bytes -> bytes.
Variable entries_text : list roa_entry -> bytes.
Variable roa_inner_text : roa -> bytes.
Variable mft_inner_text : mft -> bytes.
Variable path_text : mft -> bytes.
Variable read_text : pkifile -> bytes.
Notation cert_err := (cert_err sig_ok time_text sig_text).
Notation add_cert_err := (add_cert_err sig_ok time_text sig_text).
Notation add_roa_err := (add_roa_err sig_ok time_text sig_text entries_text roa_inner_text).
Notation add_mft_err := (add_mft_err sig_ok time_text sig_text mft_inner_text path_text).
Notation resource_err := (resource_err sig_ok crl_sig_ok dec_tal dec_cert dec_roa dec_mft dec_crl time_text sig_text dec_text entries_text roa_inner_text mft_inner_text path_text).
Notation resource_error := (resource_error sig_ok crl_sig_ok dec_tal dec_cert dec_roa dec_mft dec_crl).
Notation inval_crl_err := (inval_crl_err nil_text).
Notation add_errs := (add_errs sig_ok crl_sig_ok dec_tal dec_cert dec_roa dec_mft dec_crl hex_sha1 add_invalid time_text sig_text dec_text entries_text roa_inner_text mft_inner_text path_text).
Notation check_errs := (check_errs clock strict_hash).
Notation bad_errs := (bad_errs strict_manifests nil_text).
Notation fetch_err := (fetch_err read_text).
Notation file_errs := (file_errs sig_ok crl_sig_ok dec_tal dec_cert dec_roa dec_mft dec_crl hex_sha1 disk synced sha256 clock strict_manifests strict_hash add_invalid nil_text time_text sig_text dec_text entries_text roa_inner_text mft_inner_text path_text read_text).
Notation iter_errs := (iter_errs sig_ok crl_sig_ok dec_tal dec_cert dec_roa dec_mft dec_crl hex_sha1 disk synced sha256 clock strict_manifests strict_hash add_invalid nil_text time_text sig_text dec_text entries_text roa_inner_text mft_inner_text path_text read_text).
Notation explore_errs := (explore_errs sig_ok crl_sig_ok dec_tal dec_cert dec_roa dec_mft dec_crl hex_sha1 disk synced sha256 clock strict_manifests strict_hash add_invalid nil_text time_text sig_text dec_text entries_text roa_inner_text mft_inner_text path_text read_text).
Notation add_rep := (add_rep sig_ok crl_sig_ok dec_tal dec_cert dec_roa dec_mft dec_crl hex_sha1 add_invalid).
Notation bad_rep := (bad_rep strict_manifests).
Notation file_rep := (file_rep sig_ok crl_sig_ok dec_tal dec_cert dec_roa dec_mft dec_crl hex_sha1 disk synced sha256 clock strict_manifests strict_hash add_invalid).
Notation iter_rep := (iter_rep sig_ok crl_sig_ok dec_tal dec_cert dec_roa dec_mft dec_crl hex_sha1 disk synced sha256 clock strict_manifests strict_hash add_invalid).
Notation explore_rep := (explore_rep sig_ok crl_sig_ok dec_tal dec_cert dec_roa dec_mft dec_crl hex_sha1 disk synced sha256 clock strict_manifests strict_hash add_invalid).

(** *** Types *)

Lemma cert_err_kind : forall c t v, (do! e := cert_err c t v in VRet (option_map ce_kind e)) = cert_error sig_ok c t v.
Proof.
  intros c t v. unfold ErrText.cert_err, cert_error. destruct (negb (time_ok c (v_time v))); [reflexivity|].
  destruct t; [reflexivity|]. destruct (v_valid v (c_aki c)) as [pa|]; [|reflexivity].
  destruct (deref (v_heap v) pa) as [pr| |]; cbn [vbind]; [|reflexivity..]. destruct (r_obj pr); try reflexivity.
  destruct (negb (sig_ok c0 c)); [reflexivity|]. destruct (kin _ _); [reflexivity|].
  destruct (validate_ip_list _ _) as [((x & y) & z)|]; cbn [vgo vbind]; [|reflexivity].
  destruct (ip_chain _ _ _ _ _ _ _) as [[inv|]| |]; cbn [vbind]; [|reflexivity..].
  destruct (validate_as_list _ _) as ((x' & y') & z').
  destruct (as_chain _ _ _ _ _ _ _) as [[ainv|]| |]; cbn [vbind]; [|reflexivity..].
  destruct inv, ainv; reflexivity.
Qed.
Lemma add_cert_err_kind : forall c t v, (do! e := add_cert_err c t v in VRet (option_map ce_kind e)) = add_cert_error sig_ok c t v.
Proof. intros c t v. unfold ErrText.add_cert_err, add_cert_error. destruct (kin _ _); [reflexivity|]. apply cert_err_kind. Qed.

Lemma cert_err_made : forall c t v e, cert_err c t v = VRet (Some e) -> made e /\ ce_cert e = Some c /\ ce_innerfile e = None.
Proof.
  intros c t v e. unfold ErrText.cert_err. intros H.
  destruct (negb (time_ok c (v_time v))); [inversion H; split; [constructor|split; reflexivity]|].
  destruct t; [discriminate|]. destruct (v_valid v (c_aki c)) as [pa|]; [|inversion H; split; [constructor|split; reflexivity]].
  destruct (deref (v_heap v) pa) as [pr| |]; cbn [vbind] in H; try discriminate.
  destruct (r_obj pr); try (inversion H; split; [constructor|split; reflexivity]).
  destruct (negb (sig_ok c0 c)); [inversion H; split; [constructor|split; reflexivity]|].
  destruct (kin (v_revoked v) _); [inversion H; split; [constructor|split; reflexivity]|].
  destruct (validate_ip_list _ _) as [((x & y) & z)|] eqn:V; cbn [vgo vbind] in H; [|discriminate].
  destruct (ip_chain _ _ _ _ _ _ _) as [[inv|]| |] eqn:C; cbn [vbind] in H; try discriminate.
  2:{ inversion H; split; [constructor|split; reflexivity]. }
  destruct (validate_as_list _ _) as ((x' & y') & z').
  destruct (as_chain _ _ _ _ _ _ _) as [[ainv|]| |]; cbn [vbind] in H; try discriminate.
  2:{ inversion H; split; [constructor|split; reflexivity]. }
  assert (S : Forall shown_ip inv).
  { destruct (validate_shown _ _ _ _ _ V) as (_ & B & D). eapply chain_shown; eauto. }
  destruct inv, ainv; try discriminate; inversion H; subst; (split; [constructor; auto|split; reflexivity]).
Qed.
Lemma add_cert_err_made : forall c t v e, add_cert_err c t v = VRet (Some e) -> made e /\ ce_cert e = Some c /\ ce_innerfile e = None.
Proof.
  intros c t v e. unfold ErrText.add_cert_err. destruct (kin _ _); [|apply cert_err_made].
  intros H. inversion H. split; [constructor|split; reflexivity].
Qed.

(** The error as ExploreAdd reports it. *)
Definition reported (e : err) : err := match e with ErrPlain t => ErrFile (err_file t) | _ => e end.

Lemma resource_err_kind : forall f d v,
  (do! e := resource_err f d v in VRet (option_map (fun x => type_of (reported x)) e)) = resource_error f d v.
Proof.
  intros f d v. unfold ErrText.resource_err, ErrReport.resource_error. destruct (f_type f); try reflexivity.
  - destruct (dec_cert d) as [c|]; [|reflexivity]. destruct (check_tal f c v) as [[v1|]| |]; cbn [vbind]; [|reflexivity..].
    rewrite <- add_cert_err_kind. destruct (add_cert_err _ _ _) as [[e|]| |]; reflexivity.
  - destruct (dec_mft d) as [m|]; [|reflexivity]. unfold ErrText.add_mft_err, add_mft_error.
    destruct (extract_path_mft _); [|reflexivity]. rewrite <- add_cert_err_kind.
    destruct (add_cert_err _ _ _) as [[e|]| |]; cbn [vbind option_map]; [| |reflexivity..]; destruct (mft_inner m); reflexivity.
  - destruct (dec_roa d) as [r|]; [|reflexivity]. unfold ErrText.add_roa_err, add_roa_error. rewrite <- add_cert_err_kind.
    destruct (add_cert_err _ _ _) as [[e|]| |]; cbn [vbind option_map]; [| |reflexivity..];
      destruct (validate_entries _), (roa_inner r); reflexivity.
  - destruct (dec_crl d) as [l|]; [|reflexivity].
    destruct (add_crl _ _ _) as [(v1 & (b & a))| |]; cbn [vbind]; [|reflexivity..].
    destruct (grandparent_path f); cbn [vbind]; [|reflexivity..]. destruct (parent_file_path v1 a); cbn [vbind]; [|reflexivity..].
    destruct (beq _ _); reflexivity.
  - destruct (dec_tal d); reflexivity.
Qed.

(** The error of an object is made as such and names the certificate in it. *)
Lemma resource_err_fresh : forall f d v e, resource_err f d v = VRet (Some e) ->
  fresh e /\ inner_of e = None /\ forall c, cert_of e = Some c -> cert_in dec_cert dec_roa dec_mft f d c.
Proof.
  intros f d v e. unfold ErrText.resource_err.
  assert (P : forall t, VRet (Some (ErrPlain t)) = VRet (Some e) -> fresh e /\ inner_of e = None /\ forall c, cert_of e = Some c -> cert_in dec_cert dec_roa dec_mft f d c).
  { intros t H. inversion H. split; [constructor|split; [reflexivity|discriminate]]. }
  destruct (f_type f) eqn:T; try solve [apply P].
  - destruct (dec_cert d) as [c|] eqn:D; [|apply P]. destruct (check_tal f c v) as [[v1|]| |]; cbn [vbind]; try discriminate; [|apply P].
    destruct (add_cert_err _ _ _) as [[x|]| |] eqn:A; cbn [vbind option_map]; try discriminate. intros H. inversion H; subst.
    destruct (add_cert_err_made _ _ _ _ A) as (M & E & N). split; [now constructor|]. split; [exact N|]. cbn [cert_of]. intros c0 C. left. split; congruence.
  - destruct (dec_mft d) as [m|] eqn:D; [|apply P]. unfold ErrText.add_mft_err. destruct (extract_path_mft _); [|apply P].
    destruct (add_cert_err _ _ _) as [o| |] eqn:A; cbn [vbind]; try discriminate. intros H.
    destruct (mft_inner m).
    + destruct o as [x|]; [|discriminate]. cbn [option_map] in H. inversion H; subst.
      destruct (add_cert_err_made _ _ _ _ A) as (M & E & N). split; [now apply fr_wrap|]. split; [reflexivity|]. cbn [wrap cert_of]. intros c0 C.
      right; right. split; auto. exists m. split; auto. congruence.
    + cbn [option_map] in H. inversion H. split; [constructor|split; [reflexivity|discriminate]].
  - destruct (dec_roa d) as [r|] eqn:D; [|apply P]. unfold ErrText.add_roa_err.
    destruct (add_cert_err _ _ _) as [o| |] eqn:A; cbn [vbind]; try discriminate. intros H.
    destruct (roa_inner r); [destruct (validate_entries _)|].
    + destruct o as [x|]; [|discriminate]. cbn [option_map] in H. inversion H; subst.
      destruct (add_cert_err_made _ _ _ _ A) as (M & E & N). split; [now apply fr_wrap|]. split; [reflexivity|]. cbn [wrap cert_of]. intros c0 C.
      right; left. split; auto. exists r. split; auto. congruence.
    + cbn [option_map] in H. inversion H. split; [constructor|split; [reflexivity|discriminate]].
    + cbn [option_map] in H. inversion H. split; [constructor|split; [reflexivity|discriminate]].
  - destruct (dec_crl d) as [l|]; [|apply P].
    destruct (add_crl _ _ _) as [(v1 & (b & a))| |]; cbn [vbind]; try discriminate.
    destruct (grandparent_path f); cbn [vbind]; try discriminate. destruct (parent_file_path v1 a); cbn [vbind]; try discriminate.
    destruct (beq _ _); [discriminate|apply P].
  - destruct (dec_tal d); [discriminate|apply P].
Qed.

(** *** Exploration *)

Definition reps (x : vres (mgr * list (option err))) : vres (mgr * list report) :=
  do! (s, es) := x in VRet (s, map as_report es).
Definition all_sent (x : vres (mgr * list (option err))) : Prop := forall s es, x = VRet (s, es) -> Forall osent es.

Lemma sent_one : forall f sk b, fresh b -> osent (Some (add_info f sk b)).
Proof. intros f sk b F e E. inversion E. left. exists f, sk, b. auto. Qed.
Lemma sent_nil : osent None. Proof. intros e E. discriminate. Qed.

Ltac nothing := split; [reflexivity|let H := fresh in intros ? ? H; inversion H; constructor].

Lemma inval_mft_ok : forall f s, reps (inval_mft_err f s) = inval_mft_rep f s /\ all_sent (inval_mft_err f s).
Proof.
  intros f s. unfold inval_mft_err, inval_mft_rep. destruct (f_parent f) as [p|]; [|nothing].
  destruct (is_mft (f_type p)); [|nothing]. destruct (f_parent p) as [g|]; [|nothing].
  destruct (is_cer (f_type g)); [|nothing]. destruct (m_rop s (f_id g)) as [a|]; [|nothing].
  destruct (deref (v_heap (m_v s)) a) as [r| |]; cbn [vbind]; [|nothing..]. destruct (r_obj r); try nothing.
  destruct (invalidate _ _); cbn [vbind]; [|nothing..]. split; [reflexivity|].
  intros s0 es H. inversion H; subst. constructor; [|constructor]. apply (sent_one g None (ErrCert (err_manifest c None f))). repeat constructor.
Qed.
Lemma inval_crl_ok : forall e f s, (exists t, err_text nil_text e = Ret t) ->
  reps (inval_crl_err e f s) = inval_crl_rep f s /\ all_sent (inval_crl_err e f s).
Proof.
  intros e f s (t & T). unfold ErrText.inval_crl_err, inval_crl_rep. destruct (f_parent f) as [p|]; [|nothing].
  destruct (is_crl (f_type p)); [|nothing]. destruct (f_parent p) as [g|]; [|nothing].
  destruct (is_cer (f_type g)); [|nothing]. destruct (v_path (m_v s) (f_path g)) as [a|]; [|nothing].
  destruct (deref (v_heap (m_v s)) a) as [r| |]; cbn [vbind]; [|nothing..]. destruct (r_obj r); try nothing.
  destruct (invalidate _ _); cbn [vbind]; [|nothing..]. rewrite T. cbn [vgo vbind]. split; [reflexivity|].
  intros s0 es H. inversion H; subst. constructor; [|constructor]. apply (sent_one g None (ErrCert (err_crl c (Some t) f))). repeat constructor.
Qed.

Lemma add_ok : forall f d sha s, reps (add_errs f d sha s) = add_rep f d s /\ all_sent (add_errs f d sha s).
Proof.
  intros f d sha s. unfold ErrText.add_errs, ErrReport.add_rep.
  destruct (add_resource _ _ _ _ _ _ _ _ _ _ _) as [(v & (((b & ps) & oa) & er))| |]; cbn [vbind]; [|nothing..].
  rewrite <- resource_err_kind. destruct (resource_err f d (m_v s)) as [e| |] eqn:E; cbn [vbind]; [|nothing..].
  set (rs := match e with Some (ErrPlain t) => _ | Some x => _ | None => _ end).
  set (rs' := match option_map _ e with Some k => _ | None => _ end).
  assert (R : map as_report rs = rs' /\ Forall osent rs).
  { unfold rs, rs'. destruct e as [e|].
    - destruct (resource_err_fresh _ _ _ _ E) as (F & N & _).
      destruct e as [t|c|c|k i f0 s0]; cbn [option_map reported type_of].
      + split; [reflexivity|]. constructor; [|constructor]. apply (sent_one f (Some (d, sha)) (ErrFile (err_file t))). constructor.
      + split; [|constructor; [now apply sent_one|constructor]]. cbn in N |- *. now rewrite N.
      + split; [|constructor; [now apply sent_one|constructor]]. cbn in N |- *. now rewrite N.
      + split; [reflexivity|]. constructor; [|constructor]. now apply sent_one.
    - cbn [option_map]. destruct b; (split; [reflexivity|]); [constructor|apply Forall_cons; [apply sent_nil|constructor]]. }
  destruct R as (R & S). cbn zeta. destruct (add_invalid || b); (split; [cbn [reps vbind]; now rewrite R|intros s0 es H; inversion H; subst; exact S]).
Qed.

Lemma fetch_text : forall f s, exists t, err_text nil_text (fetch_err f s) = Ret t.
Proof. intros f s. unfold ErrText.fetch_err. destruct (kin _ _); eexists; reflexivity. Qed.
Lemma hash_text : forall a b, exists t, err_text nil_text (err_hash a b) = Ret t.
Proof. intros a b. eexists. reflexivity. Qed.

Lemma bad_ok : forall e sk f s, osent (Some (add_info f sk e)) -> (exists t, err_text nil_text e = Ret t) ->
  reps (bad_errs (Some e) sk f s) = bad_rep [as_report (Some (add_info f sk e))] f s /\ all_sent (bad_errs (Some e) sk f s).
Proof.
  intros e sk f s F T. unfold ErrText.bad_errs, ErrReport.bad_rep.
  assert (M := inval_mft_ok f s).
  assert (X : exists x, (if strict_manifests then inval_mft_err f s else VRet (s, [])) = x /\
     (if strict_manifests then inval_mft_rep f s else VRet (s, [])) = reps x /\ all_sent x).
  { destruct strict_manifests; eexists; (split; [reflexivity|]). - destruct M. split; auto. - nothing. }
  destruct X as (x & -> & -> & A). destruct x as [(s1 & r1)| |]; cbn [reps vbind]; [|nothing..].
  destruct (inval_crl_ok e f s1 T) as (<- & B). destruct (inval_crl_err e f s1) as [(s2 & r2)| |]; cbn [reps vbind]; [|nothing..].
  split. { rewrite map_app. reflexivity. }
  intros s0 es H. inversion H; subst. apply Forall_app. split; [exact (A _ _ eq_refl)|]. constructor; [exact F|exact (B _ _ eq_refl)].
Qed.
Lemma bad_none : forall sk f s, reps (bad_errs None sk f s) = bad_rep [] f s /\ all_sent (bad_errs None sk f s).
Proof.
  intros sk f s. unfold ErrText.bad_errs, ErrReport.bad_rep. destruct strict_manifests.
  - destruct (inval_mft_ok f s) as (<- & A). destruct (inval_mft_err f s) as [(s1 & r1)| |]; cbn [reps vbind]; [|nothing..].
    split; [reflexivity|]. intros s0 es H. inversion H; subst. exact (A _ _ eq_refl).
  - cbn [vbind]. nothing.
Qed.

Lemma file_ok : forall f s, reps (file_errs f s) = file_rep f s /\ all_sent (file_errs f s).
Proof.
  intros f s. unfold ErrText.file_errs, ErrReport.file_rep.
  destruct (get_next_file disk synced sha256 f s) as [[| |d sha]| |]; cbn [vbind]; [| | |nothing..].
  - assert (F : fresh (fetch_err f s)) by (unfold ErrText.fetch_err; destruct (kin _ _); constructor).
    destruct (bad_ok (fetch_err f s) None f s (sent_one f None _ F) (fetch_text f s)) as (E & A). split; [|exact A]. rewrite E.
    unfold ErrText.fetch_err, fetch_error. destruct (kin _ _); reflexivity.
  - apply bad_none.
  - assert (J : forall s1 r1 y z, reps y = z -> all_sent y -> Forall osent r1 ->
       reps (do! (s2, r2) := y in VRet (s2, r1 ++ r2)) = (do! (s2, r2) := z in VRet (s2, map as_report r1 ++ r2)) /\
       all_sent (do! (s2, r2) := y in VRet (s2, r1 ++ r2)) /\ (s1 : mgr) = s1).
    { intros s1 r1 y z <- A R. destruct y as [(s2 & r2)| |]; cbn [reps vbind]; (split; [|split]); auto; try (intros ? ? H; discriminate).
      - now rewrite map_app.
      - intros s0 es H. inversion H; subst. apply Forall_app. split; [auto|exact (A _ _ eq_refl)]. }
    assert (H0 : forall s1 r1, Forall osent r1 ->
       reps (do! (s2, r2) := add_errs f d sha s1 in VRet (s2, r1 ++ r2)) = (do! (s2, r2) := add_rep f d s1 in VRet (s2, map as_report r1 ++ r2)) /\
       all_sent (do! (s2, r2) := add_errs f d sha s1 in VRet (s2, r1 ++ r2))).
    { intros s1 r1 R. destruct (add_ok f d sha s1) as (A & B). destruct (J s1 r1 _ _ A B R) as (P & Q & _). auto. }
    assert (H1 : forall h s1 r1, osent (Some (add_info f (Some (d, sha)) (err_hash sha h))) -> Forall osent r1 ->
       reps (do! (s2, r2) := bad_errs (Some (err_hash sha h)) (Some (d, sha)) f s1 in VRet (s2, r1 ++ r2)) =
         (do! (s2, r2) := bad_rep [mkRep (Some EHash) (Some f) None] f s1 in VRet (s2, map as_report r1 ++ r2)) /\
       all_sent (do! (s2, r2) := bad_errs (Some (err_hash sha h)) (Some (d, sha)) f s1 in VRet (s2, r1 ++ r2))).
    { intros h s1 r1 RH R. destruct (bad_ok (err_hash sha h) (Some (d, sha)) f s1 RH (hash_text sha h)) as (A & B).
      destruct (J s1 r1 _ _ A B R) as (P & Q & _). auto. }
    unfold ErrText.check_errs, ErrReport.check_rep. destruct (fd_hash (f_desc f)) as [h|] eqn:FH.
    2:{ cbn [vbind]. apply (H0 s []). constructor. }
    assert (RH : beq sha h = false -> osent (Some (add_info f (Some (d, sha)) (err_hash sha h)))).
    { intros B e E. inversion E. right. exists f, d, sha, h. split; [exact FH|]. split; [|reflexivity]. intros ->. now rewrite beq_refl in B. }
    destruct strict_hash.
    2:{ cbn [vbind]. apply (H0 s []). constructor. }
    destruct (listed_stale clock f s) as [st| |]; cbn [vbind]; [|nothing..].
    destruct st.
    + destruct (inval_mft_ok f s) as (<- & A). destruct (inval_mft_err f s) as [(s1 & r1)| |]; cbn [reps vbind]; [|nothing..].
      assert (R := A _ _ eq_refl). destruct (beq sha h); [apply H0|apply H1]; auto.
    + cbn [vbind]. destruct (beq sha h); [apply (H0 s []); constructor|apply (H1 h s []); [auto|constructor]].
Qed.

Lemma iter_ok : forall s, reps (iter_errs s) = iter_rep s /\ all_sent (iter_errs s).
Proof. intros s. unfold ErrText.iter_errs, ErrReport.iter_rep. destruct (m_queue s); [nothing|apply file_ok]. Qed.
Lemma explore_ok : forall fuel s, reps (explore_errs fuel s) = explore_rep fuel s /\ all_sent (explore_errs fuel s).
Proof.
  induction fuel as [|fuel IH]; intros s; cbn [ErrText.explore_errs ErrReport.explore_rep]; destruct (m_queue s); try nothing.
  destruct (iter_ok s) as (<- & A). destruct (iter_errs s) as [(s1 & r1)| |]; cbn [reps vbind]; [|nothing..].
  destruct (IH s1) as (<- & B). destruct (explore_errs fuel s1) as [(s2 & r2)| |]; cbn [reps vbind]; [|nothing..].
  split; [now rewrite map_app|]. intros s0 es H. inversion H; subst. apply Forall_app. split; [exact (A _ _ eq_refl)|exact (B _ _ eq_refl)].
Qed.
End Errors.
