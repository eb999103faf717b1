(** Explorations with reports, for the examples and refutations. *)
From Coq Require Import Lia String.
From Verif.Model Require Import Base NetIP CertRes Roa Str Ber Tal Validator Explore ErrReport.
From Verif.Spec Require Import Trust Discovery ErrReportSpec.
From Verif.Proofs Require Import Witness ValidatorWitness ExploreWitness ErrReportProofs.

(** The repository of [ExploreWitness]; [synced] tells what is synchronised. *)
Definition e_explore (synced : bytes -> bool) (crldp : list bytes) (h : bytes) (next : Z) : vres (mgr * list report) :=
  explore_rep sig_all crl_all r_tal (r_cert crldp) r_roa (r_mft h next) (no_dec _) (fun x => x) r_disk synced (fun x => x)
    (fun _ => (50, 50)) true true false 20 (init_mgr 50 r_init).
Definition e_show (x : vres (mgr * list report)) : option (list (option ekind * option bytes * option bytes)) :=
  match x with
  | VRet (_, rs) => Some (map (fun r => (rp_kind r, option_map compute_path (rp_file r), option_map compute_path (rp_inner r))) rs)
  | _ => None
  end.

(** A trust anchor whose manifest lists its revocation list, with a signature
    that does not verify. *)
Definition l_disk : bytes -> option bytes := table
  [(str "t.tal", blob 0); (str "rsync://r/ta.cer", blob 1); (str "rsync://r/ta.mft", blob 10); (str "rsync://r/r.crl", blob 11)].
Definition l_mft : bytes -> option mft := table [(blob 10, x_mft (str "m") (str "R") [(str "r.crl", blob 11)] 0 100)].
Definition l_crl : bytes -> option crl := table [(blob 11, w_crl (str "R") [2])].
Definition l_iter (ok : bool) : mgr -> vres (mgr * list report) :=
  iter_rep sig_all (fun _ _ => ok) r_tal (r_cert []) (no_dec _) l_mft l_crl (fun x => x) l_disk (fun _ => true) (fun x => x)
    (fun _ => (50, 50)) true true false.

(** The files taken with their reports, and the final state. *)
Fixpoint trace_with (iter : mgr -> vres (mgr * list report)) (fuel : nat) (s : mgr) : option (list (pkifile * list report) * mgr) :=
  match m_queue s, fuel with
  | [], _ => Some ([], s)
  | _, O => None
  | f :: _, S n =>
      match iter s with
      | VRet (s1, r) => match trace_with iter n s1 with Some (l, s2) => Some ((f, r) :: l, s2) | None => None end
      | _ => None
      end
  end.
Lemma trace_explored : forall iter fuel s l s', trace_with iter fuel s = Some (l, s') -> explored_with iter s l s' /\ m_queue s' = [].
Proof.
  intros iter. induction fuel as [|n IH]; intros s l s' H; cbn [trace_with] in H; destruct (m_queue s) as [|f q] eqn:Q; try discriminate.
  - inversion H; subst. split; auto. constructor.
  - inversion H; subst. split; auto. constructor.
  - destruct (iter s) as [(s1 & r)| |] eqn:E; try discriminate. destruct (trace_with iter n s1) as [(l1 & s2)|] eqn:E1; [|discriminate].
    inversion H; subst. destruct (IH _ _ _ E1). split; auto. eapply ew_step; eauto.
Qed.
Definition trace_of (iter : mgr -> vres (mgr * list report)) : list (pkifile * list report) * mgr :=
  match trace_with iter 20 (init_mgr 50 r_init) with Some x => x | None => ([], init_mgr 50 r_init) end.
Lemma traced : forall iter, match trace_with iter 20 (init_mgr 50 r_init) with Some _ => true | None => false end = true ->
  explored_with iter (init_mgr 50 r_init) (fst (trace_of iter)) (snd (trace_of iter)) /\ m_queue (snd (trace_of iter)) = [].
Proof.
  intros iter H. unfold trace_of. destruct (trace_with iter 20 (init_mgr 50 r_init)) as [(l & s)|] eqn:E; [|discriminate].
  exact (trace_explored _ _ _ _ _ E).
Qed.
Definition nth_pair (iter : mgr -> vres (mgr * list report)) (i : nat) : pkifile * list report :=
  nth i (fst (trace_of iter)) (PFile 0 (mkFile [] [] TUnknown false None) None, []).

Lemma unnamed_list : exists sig_ok crl_sig_ok dec_tal dec_cert dec_roa dec_mft dec_crl disk l s f rs,
  explored_with (iter_rep sig_ok crl_sig_ok dec_tal dec_cert dec_roa dec_mft dec_crl (fun x => x) disk (fun _ => true) (fun x => x)
    (fun _ => (50, 50)) true true false) (init_mgr 50 r_init) l s /\ m_queue s = [] /\
  In (f, rs) l /\ ~ registered s f /\ rs = [mkRep None None None] /\ good_copy disk (fun x => x) f.
Proof.
  exists sig_all, (fun _ _ => false), r_tal, (r_cert []), (no_dec _), l_mft, l_crl, l_disk,
    (fst (trace_of (l_iter false))), (snd (trace_of (l_iter false))), (fst (nth_pair (l_iter false) 3)), (snd (nth_pair (l_iter false) 3)).
  destruct (traced (l_iter false)) as (A & B); [vm_compute; reflexivity|].
  split; [exact A|]. split; [exact B|]. split.
  { rewrite <- surjective_pairing. apply nth_In. vm_compute. lia. }
  split; [intros X; apply X; vm_compute; reflexivity|]. split; [vm_compute; reflexivity|].
  exists (blob 11), (blob 11). split; [split; vm_compute; reflexivity|]. intros h. vm_compute. congruence.
Qed.

Definition s_iter : mgr -> vres (mgr * list report) :=
  iter_rep sig_all crl_all r_tal (r_cert [str "rsync://x/b.crl"]) r_roa (r_mft (blob 21) 100) (no_dec _) (fun x => x) r_disk
    (fun _ => false) (fun x => x) (fun _ => (50, 50)) true true false.
Lemma silent_loss : exists sig_ok crl_sig_ok dec_tal dec_cert dec_roa dec_mft dec_crl disk l s f rs,
  explored_with (iter_rep sig_ok crl_sig_ok dec_tal dec_cert dec_roa dec_mft dec_crl (fun x => x) disk (fun _ => false) (fun x => x)
    (fun _ => (50, 50)) true true false) (init_mgr 50 r_init) l s /\ m_queue s = [] /\
  In (f, rs) l /\ ~ registered s f /\ f_type f = TCrl /\ rs = [].
Proof.
  exists sig_all, crl_all, r_tal, (r_cert [str "rsync://x/b.crl"]), r_roa, (r_mft (blob 21) 100), (no_dec _), r_disk,
    (fst (trace_of s_iter)), (snd (trace_of s_iter)), (fst (nth_pair s_iter 6)), (snd (nth_pair s_iter 6)).
  destruct (traced s_iter) as (A & B); [vm_compute; reflexivity|].
  split; [exact A|]. split; [exact B|]. split.
  { rewrite <- surjective_pairing. apply nth_In. vm_compute. lia. }
  split; [intros X; apply X; vm_compute; reflexivity|]. split; vm_compute; reflexivity.
Qed.
