(** C51: chains submitted to certificate transparency logs. *)
From Coq Require Import Lia String.
From Verif.Model Require Import Base NetIP CertRes Roa Str Tal Validator NetText Explore Octo Ct.
From Verif.Spec Require Import Addr Resources Trust CtSpec.
From Verif.Proofs Require Import StrProofs Witness ValidatorWitness ExploreWitness CtProofs.

Section Props.
Variable sig_ok : cert -> cert -> bool.
Variable crl_sig_ok : cert -> crl -> bool.
Variable dec_tal : bytes -> option tal.
Variable dec_cert : bytes -> option cert.
Variable dec_roa : bytes -> option roa.
Variable dec_mft : bytes -> option mft.
Variable dec_crl : bytes -> option crl.
Variable hex_sha1 : bytes -> bytes.
Notation run := (run sig_ok crl_sig_ok dec_tal dec_cert dec_roa dec_mft dec_crl hex_sha1).
Notation anchor := (given_as_anchor dec_cert).

(** C51. Whatever the issuer references are, and in whatever order the maps are
    iterated, building the chains ends without panic, with one chain per valid
    certificate; it follows the issuers and has at most one element more than
    there are valid certificates. *)
Theorem C51_chains_finite : forall ops now v objs, run ops (new_validator now) = VRet v -> listing (v_valid v) objs ->
  exists aki path, ct_maps objs (v_heap v) kempty kempty = VRet (aki, path) /\
    forall order, listing aki order ->
    (forall c, valid_cert v c -> In (hexs (c_ski c), hexs (c_aki c)) order) /\
    exists ls, ct objs order v = VRet ls /\
      Forall2 (fun k l => exists c, hexs (c_ski c) = fst k /\ valid_cert v c /\ follows v [] c l /\
                 (length l <= S (length objs))%nat) order ls.
Proof. exact (ct_follows sig_ok crl_sig_ok dec_tal dec_cert dec_roa dec_mft dec_crl hex_sha1). Qed.

(** With key identifiers as in RFC 6487 every chain reaches a trust anchor. *)
Theorem C51_chains_reach_anchor_partial : forall ops now v objs, run ops (new_validator now) = VRet v -> listing (v_valid v) objs ->
  rfc_key_ids (anchor ops) v ->
  exists aki path, ct_maps objs (v_heap v) kempty kempty = VRet (aki, path) /\
    forall order, listing aki order ->
    (forall c, valid_cert v c -> In (hexs (c_ski c), hexs (c_aki c)) order) /\
    exists ls, ct objs order v = VRet ls /\
      Forall2 (fun k l => exists c, hexs (c_ski c) = fst k /\ valid_cert v c /\
                 to_anchor sig_ok (anchor ops) _ (file_of v) c l) order ls.
Proof. exact (ct_anchored sig_ok crl_sig_ok dec_tal dec_cert dec_roa dec_mft dec_crl hex_sha1). Qed.

(** If moreover all objects came from files that have not changed since, and
    signed objects contain a certificate, the submitted chains are those of the
    certificates from the object to the trust anchor. *)
Theorem C51_submitted_chains_partial : forall disk synced sha256 cms_certs ops,
  (forall f d, In (DoResource f d) ops -> exists h, get_file disk synced sha256 f = VRet (SData d h)) ->
  (forall d x, dec_roa d = Some x -> cms_certs d <> None) -> (forall d x, dec_mft d = Some x -> cms_certs d <> None) ->
  forall now v objs, run ops (new_validator now) = VRet v -> listing (v_valid v) objs ->
  Forall reads_files ops -> rfc_key_ids (anchor ops) v ->
  exists aki path, ct_maps objs (v_heap v) kempty kempty = VRet (aki, path) /\
    forall order, listing aki order ->
    (forall c, valid_cert v c -> In (hexs (c_ski c), hexs (c_aki c)) order) /\
    exists ls ms, ct objs order v = VRet ls /\ ct_send disk synced sha256 cms_certs ls = VRet ms /\
      Forall2 (fun k m => exists c, hexs (c_ski c) = fst k /\ valid_cert v c /\
                 to_anchor sig_ok (anchor ops) _ (encoded dec_cert dec_roa dec_mft cms_certs ops) c m) order ms.
Proof. exact (ct_sent sig_ok crl_sig_ok dec_tal dec_cert dec_roa dec_mft dec_crl hex_sha1). Qed.
End Props.
Print Assumptions C51_chains_finite.
Print Assumptions C51_chains_reach_anchor_partial.
Print Assumptions C51_submitted_chains_partial.

(** * Concrete runs: a trust anchor, a CA and a ROA read from files *)
Definition t_file (i : nat) (p : string) (t : ftype) (trust : bool) : pkifile := PFile i (mkFile [] (str p) t trust None) None.
Definition t_root := t_file 0 "r.cer" TCer true.
Definition t_ca := t_file 1 "a.cer" TCer false.
Definition t_roa := t_file 2 "o.roa" TRoa false.
Definition t_ops : list op := [DoResource t_root (blob 1); DoResource t_ca (blob 2); DoResource t_roa (blob 3)].
Definition t_cert (root : cert) : bytes -> option cert := table [(blob 1, root); (blob 2, w_ca)].
Definition t_roas : bytes -> option roa := table [(blob 3, w_roa)].
Definition t_cms : bytes -> option bytes := table [(blob 3, [33])].
Definition t_disk : bytes -> option bytes := table [(str "r.cer", blob 1); (str "a.cer", blob 2); (str "o.roa", blob 3)].
Definition t_run (root : cert) : vres validator :=
  run sig_all crl_all (no_dec _) (t_cert root) t_roas (no_dec _) (no_dec _) (fun x => x) t_ops (new_validator 50).
Definition t_objs (root : cert) : list (bytes * addr) := [(c_ski root, 0%nat); (str "A", 1%nat); (str "O", 2%nat)].
Definition t_order (root : cert) : list (bytes * bytes) :=
  [(hexs (str "O"), hexs (str "A")); (hexs (c_ski root), hexs (c_aki root)); (hexs (str "A"), hexs (str "R"))].
Definition t_chains (root : cert) : vres (list (list (option pkifile))) :=
  do! v := t_run root in ct (t_objs root) (t_order root) v.
Definition t_sent (root : cert) : vres (list (list bytes)) :=
  do! l := t_chains root in ct_send t_disk (fun _ => true) (fun x => x) t_cms l.

Lemma t_listing3 {A} (m : kmap A) (k1 k2 k3 : bytes) (a1 a2 a3 : A) : k1 <> k2 -> k1 <> k3 -> k2 <> k3 ->
  (forall k, m k = kset (kset (kset kempty k1 a1) k2 a2) k3 a3 k) -> listing m [(k1, a1); (k2, a2); (k3, a3)].
Proof.
  intros H1 H2 H3 M. split.
  - cbn [map fst]. repeat constructor; cbn [In]; intuition congruence.
  - intros k a. rewrite M. cbn [In]. split.
    + intros [E|[E|[E|[]]]]; injection E as <- <-.
      * rewrite kset_neq, kset_neq by congruence. apply kset_eq.
      * rewrite kset_neq by congruence. apply kset_eq.
      * apply kset_eq.
    + unfold kset, kempty. destruct (beq k k3) eqn:B3; [apply beq_eq in B3; intros E; injection E as <-; subst; auto|].
      destruct (beq k k2) eqn:B2; [apply beq_eq in B2; intros E; injection E as <-; subst; auto|].
      destruct (beq k k1) eqn:B1; [apply beq_eq in B1; intros E; injection E as <-; subst; auto|discriminate].
Qed.

Definition t_state (root : cert) : validator := match t_run root with VRet v => v | _ => new_validator 0 end.
Definition returns {A} (x : vres A) : bool := match x with VRet _ => true | _ => false end.

Lemma t_valid_certs root c : v_valid (t_state root) (c_ski c) <> None ->
  (forall k, v_valid (t_state root) k = kset (kset (kset kempty (c_ski root) 0%nat) (str "A") 1%nat) (str "O") 2%nat k) ->
  c_ski c = c_ski root \/ c_ski c = str "A" \/ c_ski c = str "O".
Proof.
  intros H M. rewrite M in H. unfold kset, kempty in H. revert H.
  destruct (beq (c_ski c) (str "O")) eqn:B; [apply beq_eq in B; auto|].
  destruct (beq (c_ski c) (str "A")) eqn:B2; [apply beq_eq in B2; auto|].
  destruct (beq (c_ski c) (c_ski root)) eqn:B3; [apply beq_eq in B3; auto|intros N; now elim N].
Qed.

Example C51_example : let v := t_state w_root in
  t_run w_root = VRet v /\ listing (v_valid v) (t_objs w_root) /\ Forall reads_files t_ops /\
  rfc_key_ids (given_as_anchor (t_cert w_root) t_ops) v /\
  (forall f d, In (DoResource f d) t_ops -> exists h, get_file t_disk (fun _ => true) (fun x => x) f = VRet (SData d h)) /\
  t_chains w_root = VRet [[Some t_roa; Some t_ca; Some t_root; Some t_root]; [Some t_root; Some t_root];
                   [Some t_ca; Some t_root; Some t_root]] /\
  t_sent w_root = VRet [[[33]; blob 2; blob 1; blob 1]; [blob 1; blob 1]; [blob 2; blob 1; blob 1]].
Proof.
  intros v.
  assert (M : forall k, v_valid (t_state w_root) k = kset (kset (kset kempty (str "R") 0%nat) (str "A") 1%nat) (str "O") 2%nat k)
    by (intros k; reflexivity).
  split; [|split; [|split; [|split; [|split; [|split; [vm_compute; reflexivity|vm_compute; reflexivity]]]]]].
  - assert (R : returns (t_run w_root) = true) by (vm_compute; reflexivity). unfold v, t_state.
    destruct (t_run w_root); [reflexivity|discriminate|discriminate].
  - apply t_listing3; try discriminate. exact M.
  - repeat constructor.
  - split.
    + intros c (a & V & _). destruct (t_valid_certs w_root c) as [E|[E|E]]; [intros N; change (v_valid (t_state w_root) (c_ski c) = Some a) in V; rewrite V in N; discriminate|exact M|rewrite E; discriminate..].
    + intros c _ [G|(f & d & G & _ & D & T)]; cbn [t_ops In] in G.
      * intuition discriminate.
      * right. destruct G as [G|[G|[G|[]]]]; injection G as <- <-; try discriminate T.
        vm_compute in D. injection D as <-. reflexivity.
  - intros f d G. cbn [t_ops In] in G. destruct G as [G|[G|[G|[]]]]; injection G as <- <-; eexists; vm_compute; reflexivity.
Qed.

(** C51 fails for a trust anchor that names an issuer that is not known: its
    chain and all below it end with a nil file, and submitting them panics. *)
Definition t_foreign := mkc (str "R") (str "X") 1 [pfx (ip4 10 0 0 0) 8] [ASRange 0 1000].
Theorem C51_foreign_issuer_refuted : t_run t_foreign = VRet (t_state t_foreign) /\
  listing (v_valid (t_state t_foreign)) (t_objs t_foreign) /\
  t_chains t_foreign = VRet [[Some t_roa; Some t_ca; Some t_root; None]; [Some t_root; None]; [Some t_ca; Some t_root; None]] /\
  t_sent t_foreign = VPanic.
Proof.
  split; [|split; [|split; vm_compute; reflexivity]].
  - assert (R : returns (t_run t_foreign) = true) by (vm_compute; reflexivity). unfold t_state.
    destruct (t_run t_foreign); [reflexivity|discriminate|discriminate].
  - apply t_listing3; try discriminate. intros k. reflexivity.
Qed.
Print Assumptions C51_foreign_issuer_refuted.

(** The submission also panics if a file of an unsynchronised repository cannot
    be read any more. *)
Theorem C51_unreadable_file_refuted : forall sha256 cms f l, ct_send (fun _ => None) (fun _ => false) sha256 cms ([Some f] :: l) = VPanic.
Proof. intros. reflexivity. Qed.
Print Assumptions C51_unreadable_file_refuted.

(** A certificate is never its own issuer below the trust anchor, but a trust
    anchor may name one of its own descendants: the walk still ends. *)
Definition t_loop := mkc (str "R") (str "O") 1 [pfx (ip4 10 0 0 0) 8] [ASRange 0 1000].
Example C51_cycle : t_chains t_loop = VRet
  [[Some t_roa; Some t_ca; Some t_root; Some t_roa]; [Some t_root; Some t_roa; Some t_ca; Some t_root];
   [Some t_ca; Some t_root; Some t_roa; Some t_ca]].
Proof. vm_compute. reflexivity. Qed.
