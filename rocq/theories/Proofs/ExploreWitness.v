(** A small repository for the examples and refutations. *)
From Coq Require Import Lia String.
From Verif.Model Require Import Base NetIP CertRes Roa Str Ber Tal Validator Explore.
From Verif.Spec Require Import Addr Resources Trust Discovery.
From Verif.Proofs Require Import Witness StrProofs HeapProofs ValidatorInv ValidatorWitness.

(** The file with number [n]: an octet string holding that number. *)
Definition blob (n : Z) : bytes := [4; 1; n].
Definition table {A} (l : list (bytes * A)) (k : bytes) : option A :=
  match find (fun x => beq (fst x) k) l with Some (_, a) => Some a | None => None end.

Definition x_tal := mkTal [str "rsync://r/ta.cer"] 1 (RSAPtr 77 3).
Definition mkx (ski aki : bytes) (serial : Z) (ips : list ipinfo) (sia : list (sia_method * bytes)) (crldp : list bytes) : cert :=
  mkCert ski aki serial 0 100 ips [] 1 (RSAPtr 77 3) sia crldp [].
Definition x_root := mkx (str "R") (str "R") 1 [pfx (ip4 10 0 0 0) 8]
  [(SiaRepo, str "rsync://r/"); (SiaManifest, str "rsync://r/ta.mft")] [].
Definition x_a := mkx (str "A") (str "R") 2 [pfx (ip4 10 1 0 0) 16]
  [(SiaRepo, str "rsync://r/a"); (SiaManifest, str "rsync://r/a/a.mft")] [].
(** A CA that names a file of [x_a] as its CRL. *)
Definition x_b (crldp : list bytes) := mkx (str "B") (str "R") 3 [pfx (ip4 10 2 0 0) 16]
  [(SiaRepo, str "rsync://r/b"); (SiaManifest, str "rsync://r/b/b.mft")] crldp.
Definition ee (ski aki : bytes) (serial : Z) (ips : list ipinfo) := mkx ski aki serial ips [] [].
Definition x_roa := mkRoa (ee (str "O") (str "A") 11 [pfx (ip4 10 1 3 0) 24]) 15
  [mkEntry (mkNet (ip4 10 1 3 0) (cidr_mask 24 32)) 24] true.
Definition x_mft (ski aki : bytes) (l : list (bytes * bytes)) (this next : Z) : mft :=
  mkMft (ee ski aki 99 []) l this next true.

Section Repo.
(** What [x_b] names as CRL, what the manifest of [x_a] says about o.roa, and
    when that manifest expires. *)
Variable crldp : list bytes.
Variable roa_hash : bytes.
Variable next : Z.
Definition r_root_mft := x_mft (str "m") (str "R") [(str "a.cer", blob 2); (str "b.cer", blob 3)] 0 100.
Definition r_a_mft := x_mft (str "n") (str "A") [(str "o.roa", roa_hash)] 0 next.
Definition r_b_mft := x_mft (str "p") (str "B") [] 0 100.

Definition r_disk : bytes -> option bytes := table
  [(str "t.tal", blob 0); (str "rsync://r/ta.cer", blob 1); (str "rsync://r/ta.mft", blob 10);
   (str "rsync://r/a.cer", blob 2); (str "rsync://r/b.cer", blob 3);
   (str "rsync://r/a/a.mft", blob 20); (str "rsync://r/a/o.roa", blob 21); (str "rsync://r/b/b.mft", blob 30)].
Definition r_tal : bytes -> option tal := table [(blob 0, x_tal)].
Definition r_cert : bytes -> option cert := table [(blob 1, x_root); (blob 2, x_a); (blob 3, x_b crldp)].
Definition r_mft : bytes -> option mft := table [(blob 10, r_root_mft); (blob 20, r_a_mft); (blob 30, r_b_mft)].
Definition r_roa : bytes -> option roa := table [(blob 21, x_roa)].

(** Digests are the contents themselves, the clock stands at 50. *)
Definition r_iter : mgr -> vres mgr :=
  explore_iter sig_all crl_all r_tal r_cert r_roa r_mft (no_dec _) (fun x => x) r_disk (fun _ => true) (fun x => x)
    (fun _ => (50, 50)) true true false.
Definition r_explore : vres (mgr * nat) :=
  explore sig_all crl_all r_tal r_cert r_roa r_mft (no_dec _) (fun x => x) r_disk (fun _ => true) (fun x => x)
    (fun _ => (50, 50)) true true false 20 (init_mgr 50 [mkFile [] (str "t.tal") TTal false None]).
(** Number of files, validity of the certificates R, A, B and of the ROA. *)
Definition r_show : option (nat * list bool) :=
  match r_explore with
  | VRet (s, n) => Some (n, map (fun k => kin (v_valid (m_v s)) k) [str "R"; str "A"; str "B"] ++
                            [kin (v_validroa (m_v s)) (str "O")])
  | _ => None
  end.
(** The paths, in the order in which they are taken. *)
Definition r_final : mgr := match r_explore with VRet (s, _) => s | _ => init_mgr 0 [] end.
End Repo.

(** All in order. *)
Example repo_good : r_show [] (blob 21) 100 = Some (8%nat, [true; true; true; true]).
Proof. vm_compute. reflexivity. Qed.
(** The ROA on disk is not the one on the manifest. *)
Example repo_altered : r_show [] (blob 22) 100 = Some (8%nat, [true; false; true; false]).
Proof. vm_compute. reflexivity. Qed.
(** The manifest of A has expired. *)
Example repo_stale : r_show [] (blob 21) 49 = Some (8%nat, [true; false; true; false]).
Proof. vm_compute. reflexivity. Qed.
(** B names the ROA of A as its CRL: the ROA is not accepted, and a wrong digest
    is not noticed. *)
Example repo_claimed : r_show [str "rsync://r/a/o.roa"] (blob 21) 100 = Some (8%nat, [true; true; true; false]).
Proof. vm_compute. reflexivity. Qed.
Example repo_claimed_altered : r_show [str "rsync://r/a/o.roa"] (blob 22) 100 = Some (8%nat, [true; true; true; false]).
Proof. vm_compute. reflexivity. Qed.

(** The files taken, with the final state. *)
Fixpoint trace (iter : mgr -> vres mgr) (fuel : nat) (s : mgr) : option (list pkifile * mgr) :=
  match m_queue s, fuel with
  | [], _ => Some ([], s)
  | _, O => None
  | f :: _, S n =>
      match iter s with
      | VRet s1 => match trace iter n s1 with Some (l, s2) => Some (f :: l, s2) | None => None end
      | _ => None
      end
  end.
Lemma trace_explores : forall iter fuel s l s', trace iter fuel s = Some (l, s') -> explores iter s l s' /\ m_queue s' = [].
Proof.
  intros iter. induction fuel as [|n IH]; intros s l s' H; cbn [trace] in H; destruct (m_queue s) as [|f q] eqn:Q; try discriminate.
  - inversion H; subst. split; auto. constructor.
  - inversion H; subst. split; auto. constructor.
  - destruct (iter s) as [s1| |] eqn:E; try discriminate. destruct (trace iter n s1) as [(l1 & s2)|] eqn:E1; [|discriminate].
    inversion H; subst. destruct (IH _ _ _ E1). split; auto. eapply ex_step; eauto.
Qed.

Definition r_init : list fdesc := [mkFile [] (str "t.tal") TTal false None].
Definition r_trace (crldp : list bytes) (h : bytes) (next : Z) : list pkifile * mgr :=
  match trace (r_iter crldp h next) 20 (init_mgr 50 r_init) with Some x => x | None => ([], init_mgr 50 r_init) end.
(** The file at position [i]. *)
Definition r_file (crldp : list bytes) (h : bytes) (next : Z) (i : nat) : pkifile :=
  nth i (fst (r_trace crldp h next)) (PFile 0 (mkFile [] [] TUnknown false None) None).

Lemma r_explored : forall crldp h next,
  match trace (r_iter crldp h next) 20 (init_mgr 50 r_init) with Some _ => true | None => false end = true ->
  explores (r_iter crldp h next) (init_mgr 50 r_init) (fst (r_trace crldp h next)) (snd (r_trace crldp h next)) /\
  m_queue (snd (r_trace crldp h next)) = [].
Proof.
  intros crldp h next H. unfold r_trace. destruct (trace _ _ _) as [(l & s)|] eqn:E; [|discriminate].
  exact (trace_explores _ _ _ _ _ E).
Qed.

Lemma claimed_refutes :
  exists dec_tal dec_cert dec_mft dec_roa disk P s p g c m name h,
    explores (explore_iter sig_all crl_all dec_tal dec_cert dec_roa dec_mft (no_dec _) (fun x => x) disk (fun _ => true)
      (fun x => x) (fun _ => (50, 50)) true true false) (init_mgr 50 r_init) P s /\ m_queue s = [] /\
    In p P /\ registered s p /\ f_type p = TMft /\ f_parent p = Some g /\ f_type g = TCer /\
    contents disk dec_cert g c /\ contents disk dec_mft p m /\ In (name, h) (mft_files m) /\
    v_valid (m_v s) (c_ski c) <> None /\
    forall raw, disk (entry_uri (fd_repo (f_desc p)) name) = Some raw -> raw <> h.
Proof.
  set (l := [str "rsync://r/a/o.roa"]).
  exists r_tal, (r_cert l), (r_mft (blob 22) 100), r_roa, r_disk, (fst (r_trace l (blob 22) 100)), (snd (r_trace l (blob 22) 100)),
    (r_file l (blob 22) 100 5), (r_file l (blob 22) 100 3), x_a, (r_a_mft (blob 22) 100), (str "o.roa"), (blob 22).
  destruct (r_explored l (blob 22) 100) as (EX & QU); [vm_compute; reflexivity|].
  split; [exact EX|]. split; [exact QU|].
  split; [apply nth_In; vm_compute; lia|]. split; [vm_compute; discriminate|].
  split; [vm_compute; reflexivity|]. split; [vm_compute; reflexivity|]. split; [vm_compute; reflexivity|].
  split; [exists (blob 2), (blob 2); split; [split|]; vm_compute; reflexivity|].
  split; [exists (blob 20), (blob 20); split; [split|]; vm_compute; reflexivity|].
  split; [left; reflexivity|]. split; [vm_compute; discriminate|].
  intros raw H. vm_compute in H. inversion H. discriminate.
Qed.

(** The same repository with and without the unrelated CRL location. *)
Lemma suppressed :
  let ok := snd (r_trace [] (blob 21) 100) in
  let bad := snd (r_trace [str "rsync://r/a/o.roa"] (blob 21) 100) in
  v_validroa (m_v ok) (str "O") <> None /\ v_validroa (m_v bad) (str "O") = None /\ v_valid (m_v bad) (str "A") <> None.
Proof. vm_compute. repeat split; discriminate. Qed.
