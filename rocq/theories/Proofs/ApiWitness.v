(** The remote interface on the repository of ExploreWitness. *)
From Coq Require Import String.
From Verif.Model Require Import Base NetIP CertRes Roa Str Ber Tal Validator Explore Repo Api.
From Verif.Spec Require Import Trust Discovery RepoSpec ApiSpec.
From Verif.Proofs Require Import Witness ValidatorWitness ExploreWitness RepoWitness ApiProofs.

(** The remote side has everything but the locator. *)
Definition w_file (k : bytes) : option bytes := table [(str "t.tal", blob 0)] k.
Definition w_resource (k : bytes) : option bytes := if beq k (str "t.tal") then None else r_disk k.
Definition w_stream (broken : bool) (k : bytes) : option stream :=
  table
    [(str "rsync://r/", mkStream [(str "rsync://r/a.cer", blob 2); (str "rsync://r/b.cer", blob 3)] false);
     (str "rsync://r/a", mkStream ((str "rsync://r/a/c.crl", [4; 9]) :: if broken then [] else [(str "rsync://r/a/o.roa", blob 21)]) broken);
     (str "rsync://r/b", mkStream [] false)] k.

Section Run.
Variable roa_hash : bytes.
Variable next : Z.
Variable not_mft broken : bool.
Definition w_iter : mgr -> vres mgr :=
  api_iter sig_all crl_all r_tal (r_cert []) r_roa (r_mft roa_hash next) (no_dec _) (fun x => x) w_file w_resource (w_stream broken)
    (fun _ => (50, 50)) true true false not_mft.
Definition w_explore : vres (mgr * nat) :=
  api_explore sig_all crl_all r_tal (r_cert []) r_roa (r_mft roa_hash next) (no_dec _) (fun x => x) w_file w_resource (w_stream broken)
    (fun _ => (50, 50)) true true false not_mft 20 (init_mgr 50 r_init).
Definition w_show : option (nat * list bool) :=
  match w_explore with
  | VRet (s, n) => Some (n, map (fun k => kin (v_valid (m_v s)) k) [str "R"; str "A"; str "B"] ++
                            [kin (v_validroa (m_v s)) (str "O")])
  | _ => None
  end.
Definition w_final : mgr := match w_explore with VRet (s, _) => s | _ => init_mgr 0 [] end.
End Run.

Definition roa_at (v : validator) : option roa :=
  match v_validroa v (str "O") with
  | Some a => match nth_error (v_heap v) a with Some r => match r_obj r with ORoa x => Some x | _ => None end | None => None end
  | None => None
  end.
Lemma roa_at_valid : forall v, roa_at v = Some x_roa -> valid_roa v x_roa.
Proof.
  intros v H. unfold roa_at in H. destruct (v_validroa v (str "O")) as [a|] eqn:E; [|discriminate].
  destruct (nth_error (v_heap v) a) as [r|] eqn:N; [|discriminate]. destruct (r_obj r) eqn:O; try discriminate.
  injection H as ->. exists a. split; [exact E|]. exists r. auto.
Qed.

(** Strict settings, and the manifest lists another digest for the ROA. *)
Lemma other_digest : exists s n,
  w_explore (blob 22) 100 false false = VRet (s, n) /\ m_queue s = [] /\ valid_roa (m_v s) x_roa /\
  w_resource (str "rsync://r/a/o.roa") = Some (blob 21) /\ r_roa (blob 21) = Some x_roa /\
  w_resource (str "rsync://r/a/a.mft") = Some (blob 20) /\ r_mft (blob 22) 100 (blob 20) = Some (r_a_mft (blob 22) 100) /\
  In (str "o.roa", blob 22) (mft_files (r_a_mft (blob 22) 100)).
Proof.
  exists (w_final (blob 22) 100 false false), 8%nat.
  split; [unfold w_final; apply result_eq; vm_compute; reflexivity|]. split; [vm_compute; reflexivity|].
  split; [apply roa_at_valid; vm_compute; reflexivity|]. do 4 (split; [vm_compute; reflexivity|]). left. reflexivity.
Qed.

(** The manifest of the CA expired at 49, the clock stands at 50. *)
Lemma expired : exists s n,
  w_explore (blob 21) 49 false false = VRet (s, n) /\ m_queue s = [] /\ valid_roa (m_v s) x_roa /\
  w_resource (str "rsync://r/a/a.mft") = Some (blob 20) /\ r_mft (blob 21) 49 (blob 20) = Some (r_a_mft (blob 21) 49) /\
  mft_next (r_a_mft (blob 21) 49) = 49.
Proof.
  exists (w_final (blob 21) 49 false false), 8%nat.
  split; [unfold w_final; apply result_eq; vm_compute; reflexivity|]. split; [vm_compute; reflexivity|].
  split; [apply roa_at_valid; vm_compute; reflexivity|]. do 2 (split; [vm_compute; reflexivity|]). reflexivity.
Qed.

(** A stream that breaks is taken for a complete one. *)
Lemma broken_stream : exists f s s' r,
  api_next_repository sig_all crl_all r_tal (r_cert []) r_roa (r_mft (blob 21) 100) (no_dec _) (fun x => x) (w_stream true) f s = VRet (s', false) /\
  w_stream true (fd_repo (f_desc f)) = Some r /\ st_broken r = true.
Proof.
  exists (PFile 0 (mkFile (str "rsync://r/a") (str "rsync://r/a/a.mft") TMft false None) None), (init_mgr 50 []).
  eexists. eexists. split; [vm_compute; reflexivity|]. split; [vm_compute; reflexivity|]. reflexivity.
Qed.
