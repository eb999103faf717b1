(** A repository with a revocation list. *)
From Coq Require Import Lia String.
From Verif.Model Require Import Base NetIP CertRes Roa Str Ber Tal Validator Explore.
From Verif.Spec Require Import Addr Resources Trust Discovery CrlSpec RevokeSpec.
From Verif.Proofs Require Import Witness StrProofs HeapProofs ValidatorInv ValidatorWitness ExploreWitness.

(** C and D are authorities under A with the serial numbers 7 and 8. *)
Definition v_c := mkx (str "C") (str "A") 7 [pfx (ip4 10 1 3 0) 24]
  [(SiaRepo, str "rsync://r/c"); (SiaManifest, str "rsync://r/c/c.mft")] [].
Definition v_d := mkx (str "D") (str "A") 8 [pfx (ip4 10 1 4 0) 24]
  [(SiaRepo, str "rsync://r/d"); (SiaManifest, str "rsync://r/d/d.mft")] [].
(** B names the file [m] as its manifest. *)
Definition v_b (m : bytes) := mkx (str "B") (str "R") 3 [pfx (ip4 10 2 0 0) 16]
  [(SiaRepo, str "rsync://r/b"); (SiaManifest, m)] [].
(** The list of A revokes 7. *)
Definition v_list : crl := mkCrl [(false, [1]); (true, key_octets (str "A"))] [7] [].
Definition v_roa := mkRoa (ee (str "O") (str "C") 11 [pfx (ip4 10 1 3 0) 24]) 15
  [mkEntry (mkNet (ip4 10 1 3 0) (cidr_mask 24 32)) 24] true.
Definition v_a_mft := x_mft (str "n") (str "A") [(str "c.cer", blob 4); (str "d.cer", blob 5); (str "a.crl", blob 6)] 0 100.
Definition v_c_mft := x_mft (str "q") (str "C") [(str "o.roa", blob 41)] 0 100.

Section Repo.
(** What B names as its manifest, and whether the signature of the list is right. *)
Variable m : bytes.
Variable signed : bool.
Definition v_disk : bytes -> option bytes := table
  [(str "t.tal", blob 0); (str "rsync://r/ta.cer", blob 1); (str "rsync://r/ta.mft", blob 10);
   (str "rsync://r/a.cer", blob 2); (str "rsync://r/b.cer", blob 3);
   (str "rsync://r/a/a.mft", blob 20); (str "rsync://r/a/c.cer", blob 4); (str "rsync://r/a/d.cer", blob 5);
   (str "rsync://r/a/a.crl", blob 6);
   (str "rsync://r/c/c.mft", blob 40); (str "rsync://r/c/o.roa", blob 41)].
Definition v_cert : bytes -> option cert := table [(blob 1, x_root); (blob 2, x_a); (blob 3, v_b m); (blob 4, v_c); (blob 5, v_d)].
Definition v_mft : bytes -> option mft := table [(blob 10, r_root_mft); (blob 20, v_a_mft); (blob 40, v_c_mft)].
Definition v_roas : bytes -> option roa := table [(blob 41, v_roa)].
Definition v_lists : bytes -> option crl := table [(blob 6, v_list)].
Definition v_signed : cert -> crl -> bool := fun _ _ => signed.

Definition v_iter : mgr -> vres mgr :=
  explore_iter sig_all v_signed r_tal v_cert v_roas v_mft v_lists (fun x => x) v_disk (fun _ => true) (fun x => x)
    (fun _ => (50, 50)) true true false.
Definition v_trace : list pkifile * mgr :=
  match trace v_iter 30 (init_mgr 50 r_init) with Some x => x | None => ([], init_mgr 50 r_init) end.
Definition v_show : nat * list bool :=
  (length (fst v_trace), map (fun k => kin (v_valid (m_v (snd v_trace))) k) [str "R"; str "A"; str "B"; str "C"; str "D"] ++
                            [kin (v_validroa (m_v (snd v_trace))) (str "O")]).
End Repo.

(** * Certificates in a heap *)
Definition heap_certs (v : validator) : list cert :=
  flat_map (fun r => match r_obj r with OCert c => [c] | _ => [] end) (v_heap v).
Definition apart_b (a b : cert) : bool :=
  negb (beq (c_aki a ++ dec (c_serial a)) (c_aki b ++ dec (c_serial b))) ||
  ((c_serial a =? c_serial b) && beq (c_ski a) (c_ski b)).
Lemma apart_by : forall v, forallb (fun a => forallb (apart_b a) (heap_certs v)) (heap_certs v) = true -> serials_apart v.
Proof.
  intros v H c1 c2 (a1 & _ & (r1 & N1 & O1)) (a2 & _ & (r2 & N2 & O2)) E.
  assert (I : forall a r c, nth_error (v_heap v) a = Some r -> r_obj r = OCert c -> In c (heap_certs v)).
  { intros a r c N O. apply in_flat_map. exists r. split; [eapply nth_error_In; eauto|]. rewrite O. left. reflexivity. }
  rewrite forallb_forall in H. specialize (H _ (I _ _ _ N1 O1)). rewrite forallb_forall in H. specialize (H _ (I _ _ _ N2 O2)).
  unfold apart_b in H. rewrite E, beq_refl in H. cbn [negb orb] in H. apply andb_prop in H. destruct H as (A & B).
  split; [now apply Z.eqb_eq|now apply beq_eq].
Qed.

Lemma v_explored : forall m signed,
  match trace (v_iter m signed) 30 (init_mgr 50 r_init) with Some _ => true | None => false end = true ->
  explores (v_iter m signed) (init_mgr 50 r_init) (fst (v_trace m signed)) (snd (v_trace m signed)) /\
  m_queue (snd (v_trace m signed)) = [].
Proof.
  intros m signed H. unfold v_trace. destruct (trace _ _ _) as [(l & s)|] eqn:E; [|discriminate].
  exact (trace_explores _ _ _ _ _ E).
Qed.

Definition v_good := str "rsync://r/b/b.mft".
Definition v_hide := str "rsync://r/a/a.crl".
Definition no_file : pkifile := PFile 0 (mkFile [] [] TUnknown false None) None.
Definition v_file (m : bytes) (signed : bool) (i : nat) : pkifile := nth i (fst (v_trace m signed)) no_file.

(** A certificate that is stored under its key. *)
Lemma stored_valid : forall v c a, v_valid v (c_ski c) = Some a -> hobj (v_heap v) a = Some (OCert c) -> valid_cert v c.
Proof. intros v c a V O. exists a. split; [exact V|now apply hobj_cert_at]. Qed.

(** Of the files taken only one is taken as an anchor. *)
Lemma only_root : forall P (dec_cert : bytes -> option cert) disk c0 c, 
  forallb (fun f => negb (fd_trust (f_desc f)) ||
    match disk (compute_path f) with Some raw => match ber2der raw with BOk d => match dec_cert d with Some x => beq (c_ski x) (c_ski c0) | None => true end | _ => true end | None => true end) P = true ->
  anchor_file disk dec_cert P c -> c_ski c = c_ski c0.
Proof.
  intros P dec_cert disk c0 c H (f & IP & T & TR & (raw & d & (D & B) & C)).
  rewrite forallb_forall in H. specialize (H _ IP). rewrite TR, D in H. cbn [negb orb] in H. rewrite T in B. cbn [is_tal] in B.
  rewrite B, C in H. now apply beq_eq in H.
Qed.

Lemma v_revoked :
  let P := fst (v_trace v_good true) in let s := snd (v_trace v_good true) in
  explores (v_iter v_good true) (init_mgr 50 r_init) P s /\ serials_apart (m_v s) /\
  (forall x, In x r_init -> fd_trust x = false) /\
  revoked v_disk (fun x => x) (v_cert v_good) v_lists (v_signed true) P (m_v s) v_c /\
  ~ anchor_file v_disk (v_cert v_good) P v_c /\ known_cert (m_v s) v_c /\ valid_cert (m_v s) v_d.
Proof.
  destruct (v_explored v_good true) as (EX & _); [vm_compute; reflexivity|].
  split; [exact EX|]. split; [apply apart_by; vm_compute; reflexivity|]. split; [intros x [<-|[]]; reflexivity|]. split.
  - exists (v_file v_good true 9), v_list, x_a. split; [apply nth_In; vm_compute; lia|]. split; [vm_compute; reflexivity|].
    split; [exists (blob 6), (blob 6); split; [split; vm_compute; reflexivity|]; intros h H; vm_compute in H; inversion H; vm_compute; reflexivity|].
    split; [exists (blob 6), (blob 6); split; [split; vm_compute; reflexivity|vm_compute; reflexivity]|].
    split.
    + left. exists (v_file v_good true 5), (v_file v_good true 3), x_a.
      split; [repeat split; vm_compute; reflexivity|]. split; [|reflexivity].
      exists (blob 2), (blob 2). split; [split; vm_compute; reflexivity|vm_compute; reflexivity].
    + split; [apply (stored_valid _ _ 4%nat); vm_compute; reflexivity|]. split; [reflexivity|]. split.
      * exists [(false, [1])], []. split; [reflexivity|]. split; [intros e [<-|[]]; reflexivity|]. cbn. lia.
      * split; [reflexivity|left; reflexivity].
  - split; [intros A; apply (only_root _ _ _ x_root) in A; [discriminate|vm_compute; reflexivity]|]. split.
    + exists 8%nat. split; [vm_compute; reflexivity|]. apply hobj_cert_at. vm_compute. reflexivity.
    + apply (stored_valid _ _ 9%nat); vm_compute; reflexivity.
Qed.

(** B names the list of A as its manifest: the list is not used. *)
Lemma hidden :
  let P := fst (v_trace v_hide true) in let s := snd (v_trace v_hide true) in
  let p := v_file v_hide true 5 in let g := v_file v_hide true 3 in
  explores (v_iter v_hide true) (init_mgr 50 r_init) P s /\ m_queue s = [] /\ serials_apart (m_v s) /\
  In p P /\ registered s p /\ f_type p = TMft /\ f_parent p = Some g /\ f_type g = TCer /\
  contents v_disk (v_cert v_hide) g x_a /\ contents v_disk v_mft p v_a_mft /\ In (str "a.crl", blob 6) (mft_files v_a_mft) /\
  v_disk (entry_uri (fd_repo (f_desc p)) (str "a.crl")) = Some (blob 6) /\ ber2der (blob 6) = BOk (blob 6) /\
  v_lists (blob 6) = Some v_list /\ valid_cert (m_v s) x_a /\ names_issuer v_list (c_ski x_a) /\
  v_signed true x_a v_list = true /\ c_aki v_c = c_ski x_a /\ In (c_serial v_c) (crl_serials v_list) /\
  ~ anchor_file v_disk (v_cert v_hide) P v_c /\ valid_cert (m_v s) v_c /\ valid_roa (m_v s) v_roa.
Proof.
  destruct (v_explored v_hide true) as (EX & QU); [vm_compute; reflexivity|].
  split; [exact EX|]. split; [exact QU|]. split; [apply apart_by; vm_compute; reflexivity|].
  split; [apply nth_In; vm_compute; lia|]. split; [vm_compute; discriminate|].
  split; [vm_compute; reflexivity|]. split; [vm_compute; reflexivity|]. split; [vm_compute; reflexivity|].
  split; [exists (blob 2), (blob 2); split; [split; vm_compute; reflexivity|vm_compute; reflexivity]|].
  split; [exists (blob 20), (blob 20); split; [split; vm_compute; reflexivity|vm_compute; reflexivity]|].
  split; [right; right; left; reflexivity|]. split; [vm_compute; reflexivity|]. split; [vm_compute; reflexivity|].
  split; [vm_compute; reflexivity|]. split; [apply (stored_valid _ _ 4%nat); vm_compute; reflexivity|].
  split; [exists [(false, [1])], []; split; [reflexivity|]; split; [intros e [<-|[]]; reflexivity|cbn; lia]|].
  split; [reflexivity|]. split; [reflexivity|]. split; [left; reflexivity|].
  split; [intros A; apply (only_root _ _ _ x_root) in A; [discriminate|vm_compute; reflexivity]|].
  split; [apply (stored_valid _ _ 8%nat); vm_compute; reflexivity|].
  destruct (v_validroa (m_v (snd (v_trace v_hide true))) (str "O")) as [a|] eqn:E; [|vm_compute in E; discriminate E].
  exists a. split; [exact E|]. vm_compute in E. injection E as <-. eexists. split; vm_compute; reflexivity.
Qed.

(** The list is on the manifest, but its signature is wrong. *)
Lemma unsigned :
  let P := fst (v_trace v_good false) in let s := snd (v_trace v_good false) in
  explores (v_iter v_good false) (init_mgr 50 r_init) P s /\ m_queue s = [] /\
  valid_cert (m_v s) v_c /\ ~ anchor_file v_disk (v_cert v_good) P v_c /\ v_validcrl (m_v s) (c_aki v_c) = None.
Proof.
  destruct (v_explored v_good false) as (EX & QU); [vm_compute; reflexivity|].
  split; [exact EX|]. split; [exact QU|].
  split; [apply (stored_valid _ _ 8%nat); vm_compute; reflexivity|].
  split; [intros A; apply (only_root _ _ _ x_root) in A; [discriminate|vm_compute; reflexivity]|].
  vm_compute. reflexivity.
Qed.
