(** Repository mode on the cache of ExploreWitness. *)
From Coq Require Import String.
From Verif.Model Require Import Base NetIP CertRes Roa Str Ber Tal Validator Explore Repo.
From Verif.Spec Require Import Trust Discovery RepoSpec.
From Verif.Proofs Require Import Witness ValidatorWitness ExploreWitness RepoProofs.

(** The addresses as local directories, as they would be below a working
    directory with a copy of the cache called "rsync:". *)
Definition d_local : bytes -> option (list dirent) := table
  [(str "rsync://r/", [mkDirent (str "a") true None; mkDirent (str "a.cer") false (Some (blob 2));
                       mkDirent (str "b.cer") false (Some (blob 3)); mkDirent (str "ta.mft") false (Some (blob 10))]);
   (str "rsync://r/a/", [mkDirent (str "a.mft") false (Some (blob 20)); mkDirent (str "o.roa") false (Some (blob 21))]);
   (str "rsync://r/b/", [mkDirent (str "b.mft") false (Some (blob 30))])].
(** No such directory. *)
Definition d_none : bytes -> option (list dirent) := fun _ => None.

(** The certificates with addresses that end in a slash. *)
Definition d_a := mkx (str "A") (str "R") 2 [pfx (ip4 10 1 0 0) 16]
  [(SiaRepo, str "rsync://r/a/"); (SiaManifest, str "rsync://r/a/a.mft")] [].
Definition d_b := mkx (str "B") (str "R") 3 [pfx (ip4 10 2 0 0) 16]
  [(SiaRepo, str "rsync://r/b/"); (SiaManifest, str "rsync://r/b/b.mft")] [].
Definition d_cert : bytes -> option cert := table [(blob 1, x_root); (blob 2, d_a); (blob 3, d_b)].

Section Run.
Variable dir : bytes -> option (list dirent).
Variable roa_hash : bytes.
Definition d_iter : mgr -> vres mgr :=
  repo_iter sig_all crl_all r_tal d_cert r_roa (r_mft roa_hash 100) (no_dec _) (fun x => x) r_disk (fun _ => true) (fun x => x)
    (fun _ => (50, 50)) true true false dir.
Definition d_explore (fuel : nat) : vres (mgr * nat) :=
  repo_explore sig_all crl_all r_tal d_cert r_roa (r_mft roa_hash 100) (no_dec _) (fun x => x) r_disk (fun _ => true) (fun x => x)
    (fun _ => (50, 50)) true true false dir fuel (init_mgr 50 r_init).
Definition d_show : option (nat * list bool) :=
  match d_explore 20 with
  | VRet (s, n) => Some (n, map (fun k => kin (v_valid (m_v s)) k) [str "R"; str "A"; str "B"] ++
                            [kin (v_validroa (m_v s)) (str "O")])
  | _ => None
  end.
End Run.
(** The same in the usual mode. *)
Definition d_usual (roa_hash : bytes) : option (nat * list bool) :=
  match explore sig_all crl_all r_tal d_cert r_roa (r_mft roa_hash 100) (no_dec _) (fun x => x) r_disk (fun _ => true) (fun x => x)
          (fun _ => (50, 50)) true true false 20 (init_mgr 50 r_init) with
  | VRet (s, n) => Some (n, map (fun k => kin (v_valid (m_v s)) k) [str "R"; str "A"; str "B"] ++
                            [kin (v_validroa (m_v s)) (str "O")])
  | _ => None
  end.

Definition d_final (dir : bytes -> option (list dirent)) (h : bytes) : mgr :=
  match d_explore dir h 20 with VRet (s, _) => s | _ => init_mgr 50 [] end.

Lemma d_roa_valid : valid_roa (m_v (d_final d_local (blob 22))) x_roa.
Proof.
  exists 9%nat. split; [vm_compute; reflexivity|].
  exists (nth 9 (v_heap (m_v (d_final d_local (blob 22)))) (new_res TTal None None (OTal x_tal))). split; vm_compute; reflexivity.
Qed.

Lemma result_eq : forall (r : vres (mgr * nat)) (z : mgr) n,
  match r with VRet (_, k) => Some k | _ => None end = Some n ->
  r = VRet (match r with VRet (s, _) => s | _ => z end, n).
Proof. intros [(s & k)| |] z n H; try discriminate H. injection H as ->. reflexivity. Qed.

Lemma digest_ignored : exists s n p,
  d_explore d_local (blob 22) 20 = VRet (s, n) /\ m_queue s = [] /\ valid_roa (m_v s) x_roa /\
  r_disk (str "rsync://r/a/o.roa") = Some (blob 21) /\ r_roa (blob 21) = Some x_roa /\
  f_path p = str "rsync://r/a/a.mft" /\ r_disk (f_path p) = Some (blob 20) /\
  r_mft (blob 22) 100 (blob 20) = Some (r_a_mft (blob 22) 100) /\
  In (str "o.roa", blob 22) (mft_files (r_a_mft (blob 22) 100)) /\
  v_validmft (m_v s) (c_ski (mft_cert (r_a_mft (blob 22) 100))) <> None.
Proof.
  exists (d_final d_local (blob 22)), 8%nat, (PFile 0 (mkFile (str "rsync://r/a/") (str "rsync://r/a/a.mft") TMft false None) None).
  split; [apply result_eq; vm_compute; reflexivity|]. split; [vm_compute; reflexivity|]. split; [apply d_roa_valid|].
  do 5 (split; [vm_compute; reflexivity|]). split; [left; reflexivity|].
  assert (E : kin (v_validmft (m_v (d_final d_local (blob 22)))) (c_ski (mft_cert (r_a_mft (blob 22) 100))) = true) by (vm_compute; reflexivity).
  unfold kin in E. intros N. rewrite N in E. discriminate E.
Qed.
