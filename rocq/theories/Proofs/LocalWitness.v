(** Runs of localrpki on a small repository. *)
From Coq Require Import Lia String.
From Verif.Model Require Import Base NetIP CertRes Roa Str Ber Tal Validator Explore NetText Output Octo Report Local.
From Verif.Spec Require Import Addr Resources Canon Trust Discovery EndSpec LocalSpec.
From Verif.Proofs Require Import Witness StrProofs HeapProofs ValidatorInv ValidatorWitness ExploreWitness EndWitness ReportThm ReportWitness LocalThm.

Definition local_in (q : exploration) : local := mkLoc (x_files q) (x_mgr q) (p_roas (report_in (m_v (x_mgr q)))).
Lemma local_in_explored : forall sg cs dt dc dr dm dl hs disk synced sha clock sm sh ai q,
  explored_report sg cs dt dc dr dm dl hs disk synced sha clock sm sh ai q (report_in (m_v (x_mgr q))) ->
  explored_local sg cs dt dc dr dm dl hs disk synced sha clock sm sh ai (x_now q) (x_init q) (local_in q).
Proof. intros sg cs dt dc dr dm dl hs disk synced sha clock sm sh ai q (X & _ & _ & L & _). exact (conj X L). Qed.

(** The repository of [r_iter] with the validation at time [vt] and clocks at
    [now]. *)
Definition t_expl (vt now : Z) : exploration :=
  traced r_tal (r_cert []) r_roa (r_mft (blob 21) 100) r_disk (fun _ => false) (fun x => x) (fun _ => (now, now)) 20 vt r_init.
Definition t_local (vt now : Z) : local := local_in (t_expl vt now).
Definition t_explored (vt now : Z) : list fdesc -> local -> Prop :=
  explored_local sig_all crl_all r_tal (r_cert []) r_roa (r_mft (blob 21) 100) (no_dec _) (fun x => x) r_disk (fun _ => false)
    (fun x => x) (fun _ => (now, now)) true true false vt.
Lemma t_local_explored : forall vt now,
  match trace (explore_iter sig_all crl_all r_tal (r_cert []) r_roa (r_mft (blob 21) 100) (no_dec _) (fun x => x) r_disk
    (fun _ => false) (fun x => x) (fun _ => (now, now)) true true false) 20 (init_mgr vt r_init) with Some _ => true | None => false end = true ->
  t_explored vt now r_init (t_local vt now).
Proof. intros vt now H. exact (local_in_explored _ _ _ _ _ _ _ _ _ _ _ _ _ _ _ _ (traced_report _ _ _ _ _ _ _ _ _ _ _ H)). Qed.

Lemma t_plain : forall x, valid_roa (m_v (lc_mgr (t_local 50 50))) x -> plain_roa x.
Proof.
  assert (E : t_explored 50 50 r_init (t_local 50 50)) by (apply t_local_explored; vm_compute; reflexivity).
  intros x (a & V & r & N & O). apply (proj2 (proj2 E)) in V. clear E.
  assert (X : exists b r, lc_roas (t_local 50 50) = [(str "O", b)] /\
     nth_error (v_heap (m_v (lc_mgr (t_local 50 50)))) b = Some r /\ r_obj r = ORoa x_roa)
    by (eexists; eexists; split; [vm_compute; reflexivity|split; vm_compute; reflexivity]).
  revert V N. generalize (lc_roas (t_local 50 50)), (v_heap (m_v (lc_mgr (t_local 50 50)))) , X. clear X. intros l h (b & r' & -> & N' & O') [V|[]] N.
  injection V as V1 <-. assert (r' = r) by congruence. subst r'. assert (x = x_roa) by congruence. subst x. clear.
  split; [|split].
  - constructor; [left|constructor]. do 3 eexists. apply (den_prefix (ip4 10 1 3 0) 24); [plain|unfold addr_bits; cbn; lia].
  - intros fam (i & [<-|[]] & H). inversion H.
  - intros e [<-|[]]. do 3 eexists. split; [apply (den_prefix (ip4 10 1 3 0) 24); [plain|unfold addr_bits; cbn; lia]|].
    vm_compute. intuition (try discriminate).
Qed.
