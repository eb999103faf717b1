(** Reports on small repositories. *)
From Coq Require Import Lia Bool String.
From Verif.Model Require Import Base Str NetIP CertRes Roa Ber Tal Validator Explore NetText Output Octo Report.
From Verif.Spec Require Import Addr Resources Trust Discovery CtSpec OutputSpec EndSpec ReportSpec.
From Verif.Proofs Require Import StrProofs HeapProofs ValidatorInv ValidatorRun Witness ValidatorWitness ExploreInv ExploreThm ExploreWitness EndWitness ReportThm.

(** An order of a map whose keys are among [ks]. *)
Definition picks {A} (m : kmap A) (ks : list bytes) : list (bytes * A) :=
  flat_map (fun k => match m k with Some a => [(k, a)] | None => [] end) ks.
Lemma picks_in : forall A (m : kmap A) ks k a, In (k, a) (picks m ks) <-> In k ks /\ m k = Some a.
Proof.
  intros A m ks k a. unfold picks. rewrite in_flat_map. split.
  - intros (k' & I & X). destruct (m k') eqn:E; [|contradiction]. destruct X as [X|[]]. injection X as -> ->. auto.
  - intros (I & X). exists k. rewrite X. cbn. auto.
Qed.
Lemma picks_listing : forall A (m : kmap A) ks, NoDup ks -> (forall k a, m k = Some a -> In k ks) -> listing m (picks m ks).
Proof.
  intros A m ks N H. split.
  - clear H. induction ks as [|k ks IH]; [constructor|]. inversion N; subst. cbn [picks flat_map]. rewrite map_app. fold (picks m ks).
    destruct (m k) eqn:E; cbn [map fst app]; [|auto]. constructor; [|auto].
    intros I. apply in_map_iff in I as ((k' & a') & X & I). cbn in X. subst k'. apply picks_in in I. tauto.
  - intros k a. rewrite picks_in. split; [tauto|]. eauto.
Qed.

(** The key identifiers of all objects *)
Definition obj_key (r : resource) : list bytes :=
  match r_obj r with OCert c => [c_ski c] | ORoa x => [c_ski (roa_cert x)] | OMft m => [c_ski (mft_cert m)] | _ => [] end.
Definition all_keys (v : validator) : list bytes := nodup (list_eq_dec Z.eq_dec) (flat_map obj_key (v_heap v)).
Lemma key_listed : forall v a r k, nth_error (v_heap v) a = Some r -> In k (obj_key r) -> In k (all_keys v).
Proof. intros v a r k N I. apply nodup_In, in_flat_map. exists r. split; [exact (nth_error_In _ _ N)|exact I]. Qed.

Definition report_in (v : validator) : reported :=
  mkRep v (picks (v_valid v) (all_keys v)) (picks (v_validroa v) (all_keys v)) (picks (v_validmft v) (all_keys v)).
Lemma report_in_orders : forall sig_ok T v, Inv sig_ok T v ->
  listing (v_valid v) (p_certs (report_in v)) /\ listing (v_validroa v) (p_roas (report_in v)) /\ listing (v_validmft v) (p_mfts (report_in v)).
Proof.
  intros sig_ok T v I. split; [|split]; apply picks_listing; try apply NoDup_nodup; intros k a V.
  - apply (inv_valid _ _ _ I) in V. destruct (inv_obj _ _ _ I _ _ V) as (c & O & K). unfold hobj in O.
    destruct (nth_error (v_heap v) a) as [r|] eqn:N; [|discriminate]. injection O as O. apply (key_listed v a r k N).
    unfold obj_key. rewrite O, K. now left.
  - destruct (inv_vroa _ _ _ I _ _ V) as (x & b & O & K & _). unfold hobj in O.
    destruct (nth_error (v_heap v) a) as [r|] eqn:N; [|discriminate]. injection O as O. apply (key_listed v a r k N).
    unfold obj_key. rewrite O, K. now left.
  - destruct (inv_vmft _ _ _ I _ _ V) as (x & b & O & K & _). unfold hobj in O.
    destruct (nth_error (v_heap v) a) as [r|] eqn:N; [|discriminate]. injection O as O. apply (key_listed v a r k N).
    unfold obj_key. rewrite O, K. now left.
Qed.

(** A traced exploration with the report on its state. *)
Section Traced.
Variables (dt : bytes -> option tal) (dc : bytes -> option cert) (dr : bytes -> option roa) (dm : bytes -> option mft).
Variables (disk : bytes -> option bytes) (synced : bytes -> bool) (sha : bytes -> bytes) (clock : nat -> Z * Z).
Notation iter := (explore_iter sig_all crl_all dt dc dr dm (no_dec _) (fun x => x) disk synced sha clock true true false).
Definition traced (fuel : nat) (now : Z) (init : list fdesc) : exploration :=
  let t := odefault ([], init_mgr now init) (trace iter fuel (init_mgr now init)) in mkExpl now init (fst t) (snd t).
Lemma traced_report : forall fuel now init,
  match trace iter fuel (init_mgr now init) with Some _ => true | None => false end = true ->
  explored_report sig_all crl_all dt dc dr dm (no_dec _) (fun x => x) disk synced sha clock true true false
    (traced fuel now init) (report_in (m_v (x_mgr (traced fuel now init)))).
Proof.
  intros fuel now init H. destruct (trace_run _ _ _ ([], init_mgr now init) H) as (X & _).
  split; [exact X|]. split; [reflexivity|].
  destruct (explored_run _ _ _ _ _ _ _ _ _ _ _ _ _ _ _ _ _ _ _ X) as (ops & R & _). apply inv_run in R.
  exact (report_in_orders _ _ _ (proj1 R)).
Qed.
End Traced.

(** The repository of [r_iter] *)
Definition p_expl (h : bytes) : exploration :=
  traced r_tal (r_cert []) r_roa (r_mft h 100) r_disk (fun _ => true) (fun x => x) (fun _ => (50, 50)) 20 50 r_init.
Definition p_rep (h : bytes) : reported := report_in (m_v (x_mgr (p_expl h))).
Definition p_explored (h : bytes) : exploration -> reported -> Prop :=
  explored_report sig_all crl_all r_tal (r_cert []) r_roa (r_mft h 100) (no_dec _) (fun x => x) r_disk (fun _ => true)
    (fun x => x) (fun _ => (50, 50)) true true false.

(** A single certificate, valid until the end of 9999, for AS 2^32 + 5. *)
Definition l_cert : cert := mkCert (str "R") (str "R") 1 0 253402300799 [] [ASNum 4294967301] 1 (RSAPtr 77 3) [] [] [].
Definition l_expl : exploration :=
  traced r_tal (table [(blob 1, l_cert)]) (no_dec _) (no_dec _) r_disk (fun _ => true) (fun x => x) (fun _ => (50, 50)) 20 50 r_init.
Definition l_rep : reported := report_in (m_v (x_mgr l_expl)).
Definition l_explored : exploration -> reported -> Prop :=
  explored_report sig_all crl_all r_tal (table [(blob 1, l_cert)]) (no_dec _) (no_dec _) (no_dec _) (fun x => x) r_disk (fun _ => true)
    (fun x => x) (fun _ => (50, 50)) true true false.

(** What is shown *)
Definition brief (e : out_res) : kind * bytes * bytes := (kind_of e, o_ski e, o_path e).
