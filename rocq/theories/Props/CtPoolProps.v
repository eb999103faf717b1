(** C84: the workers that submit chains of certificates, and ctrpki. *)
From Coq Require Import List String Permutation.
From Verif.Model Require Import Base NetIP CertRes Roa Str Tal Validator NetText Explore Octo Ct CtPool.
From Verif.Spec Require Import Trust CtSpec CtPoolSpec.
From Verif.Proofs Require Import StrProofs Witness ValidatorWitness ExploreWitness CtPoolProofs CtPoolRun.
From Verif.Props Require Import CtProps.
Import ListNotations.

(** C84. In every execution of octorpki each chain is exactly once still to be
    handed over, in the hands of a worker, or submitted; and at most as many are
    in hands as there are workers. *)
Theorem C84_octo_each_once : forall (C : Type) threads (l : list C) s, steps C (ostep C) (send_start C threads l) s ->
  Permutation l (to_hand (s_main s) ++ in_hands (s_workers s) ++ s_sent s) /\ (length (in_hands (s_workers s)) <= threads)%nat.
Proof. exact octo_once. Qed.

(** No execution is infinite. *)
Theorem C84_octo_ends : forall (C : Type) s, Acc (fun b a => ostep C a b) s.
Proof. exact octo_ends. Qed.

(** With a worker there is no deadlock: when nothing can happen any more, all
    workers have returned and every chain has been submitted exactly once. *)
Theorem C84_octo_all_submitted : forall (C : Type) threads (l : list C) s,
  (0 < threads)%nat -> steps C (ostep C) (send_start C threads l) s ->
  (exists s', ostep C s s') \/ (s_main s = Ended /\ Forall (fun w => w = Left) (s_workers s) /\ Permutation l (s_sent s)).
Proof. exact octo_live. Qed.

(** Without workers the first chain is never handed over: octorpki hangs. *)
Theorem C84_octo_no_workers_refuted : forall (C : Type) (c : C) l s,
  steps C (ostep C) (send_start C 0 (c :: l)) s -> s = send_start C 0 (c :: l) /\ forall s', ~ ostep C s s'.
Proof.
  intros C c l s H. split; [exact (octo_stuck C c l s H)|]. intros s' T.
  pose proof (octo_stuck C c l s H) as E. pose proof (octo_stuck C c l s' (steps_next _ _ _ _ _ H T)) as E'.
  pose proof (ostep_cost C 0 _ _ T) as L. rewrite E, E' in L. exact (PeanoNat.Nat.lt_irrefl _ L).
Qed.

(** ctrpki ends too, without deadlock. *)
Theorem C84_ctrpki_ends : forall (C : Type) threads s, Acc (fun b a => cstep C threads a b) s.
Proof. exact ctrpki_ends. Qed.
Theorem C84_ctrpki_no_deadlock : forall (C : Type) threads (l : list C) s,
  steps C (cstep C threads) (send_start C threads l) s -> (0 < threads)%nat -> s_main s <> Ended -> exists s', cstep C threads s s'.
Proof. exact ctrpki_live. Qed.

(** At its end every chain has been submitted once or is left in the channel,
    and at most as many are left as there are workers. *)
Theorem C84_ctrpki_submitted_partial : forall (C : Type) threads (l : list C) s,
  steps C (cstep C threads) (send_start C threads l) s -> s_main s = Ended ->
  Permutation l (s_buffer s ++ s_sent s) /\ (length (s_buffer s) <= threads)%nat /\ (length l <= length (s_sent s) + threads)%nat.
Proof. exact ctrpki_end. Qed.

(** It may end without having submitted any of as many chains as it has workers. *)
Theorem C84_ctrpki_may_submit_none_refuted : forall (C : Type) threads (c : C) l, (length (c :: l) <= threads)%nat ->
  exists s, steps C (cstep C threads) (send_start C threads (c :: l)) s /\ s_main s = Ended /\ s_sent s = [].
Proof. exact ctrpki_may_lose. Qed.
Print Assumptions C84_octo_each_once.
Print Assumptions C84_octo_ends.
Print Assumptions C84_octo_all_submitted.
Print Assumptions C84_octo_no_workers_refuted.
Print Assumptions C84_ctrpki_ends.
Print Assumptions C84_ctrpki_no_deadlock.
Print Assumptions C84_ctrpki_submitted_partial.
Print Assumptions C84_ctrpki_may_submit_none_refuted.

(** Two chains and two workers: both are submitted, in the other order. *)
Example C84_example_octo : steps nat (ostep nat) (send_start nat 2 [1; 2]%nat) (mkSend Ended [] [Left; Left] [2; 1]%nat).
Proof.
  eapply steps_next; [|apply (os_leave nat [Left] [] [2; 1]%nat)].
  eapply steps_next; [|apply (os_leave nat [] [Ready] [2; 1]%nat)].
  eapply steps_next; [|apply (os_submit nat Ended [] 1%nat [Ready] [2]%nat)].
  eapply steps_next; [|apply (os_submit nat Ended [Submits 1%nat] 2%nat [] [])].
  eapply steps_next; [|apply os_close].
  eapply steps_next; [|apply (os_hand nat 2%nat [] [Submits 1%nat] [] [])].
  eapply steps_next; [|apply (os_hand nat 1%nat [2]%nat [] [Ready] [])].
  apply steps_refl.
Qed.
Example C84_example_ctrpki : steps nat (cstep nat 1) (send_start nat 1 [1; 2]%nat) (mkSend Ended [2]%nat [Left] [1]%nat).
Proof.
  eapply steps_next; [|apply cs_exit].
  eapply steps_next; [|apply (cs_quit nat 1 [2]%nat [] [] [1]%nat); repeat constructor].
  eapply steps_next; [|apply cs_end].
  eapply steps_next; [|apply (cs_put nat 1 2%nat [] []); repeat constructor].
  eapply steps_next; [|apply (cs_submit nat 1 _ [] [] 1%nat [] [])].
  eapply steps_next; [|apply (cs_take nat 1 _ 1%nat [] [] [] [])].
  eapply steps_next; [|apply (cs_put nat 1 1%nat [2]%nat []); repeat constructor].
  apply steps_refl.
Qed.

Section Props.
Variable sig_ok : cert -> cert -> bool.
Variable crl_sig_ok : cert -> crl -> bool.
Variable dec_tal : bytes -> option tal.
Variable dec_cert : bytes -> option cert.
Variable dec_roa : bytes -> option roa.
Variable dec_mft : bytes -> option mft.
Variable dec_crl : bytes -> option crl.
Variable hex_sha1 : bytes -> bytes.
Notation run := (Validator.run sig_ok crl_sig_ok dec_tal dec_cert dec_roa dec_mft dec_crl hex_sha1).

(** The chains ctrpki hands over: after each locator, one for every certificate
    that is valid by then, of that locator or an earlier one. *)
Theorem C84_ctrpki_chains : forall now vs, explorations run (new_validator now) vs ->
  exists lss, ctrpki_chains vs = VRet (concat lss) /\
    Forall2 (fun p ls => let '(v, objs, order) := p in
      (forall c, valid_cert v c -> In (hexs (c_ski c), hexs (c_aki c)) order) /\
      Forall2 (fun k l => exists c, hexs (c_ski c) = fst k /\ valid_cert v c /\ follows v [] c l) order ls) vs lss.
Proof. exact (chains_each sig_ok crl_sig_ok dec_tal dec_cert dec_roa dec_mft dec_crl hex_sha1). Qed.
End Props.
Print Assumptions C84_ctrpki_chains.

(** With a second locator that adds nothing, every chain is handed over twice. *)
Definition cp_order : list (bytes * bytes) :=
  [(hexs (str "R"), hexs (c_aki w_root)); (hexs (str "A"), hexs (str "R")); (hexs (str "O"), hexs (str "A"))].
Lemma cp_maps : forall h k0 k1 k2 a0 a1 a2 r0 r1 r2 c0 c1 c2,
  deref h a0 = VRet r0 -> deref h a1 = VRet r1 -> deref h a2 = VRet r2 ->
  r_obj r0 = OCert c0 -> r_obj r1 = OCert c1 -> r_obj r2 = OCert c2 ->
  exists path, ct_maps [(k0, a0); (k1, a1); (k2, a2)] h kempty kempty =
    VRet (kset (kset (kset kempty (hexs (c_ski c0)) (hexs (c_aki c0))) (hexs (c_ski c1)) (hexs (c_aki c1))) (hexs (c_ski c2)) (hexs (c_aki c2)), path).
Proof.
  intros h k0 k1 k2 a0 a1 a2 r0 r1 r2 c0 c1 c2 D0 D1 D2 E0 E1 E2. eexists. cbn [ct_maps].
  rewrite D0. cbn [vbind]. rewrite E0, D1. cbn [vbind]. rewrite E1, D2. cbn [vbind]. rewrite E2. reflexivity.
Qed.
Lemma cp_twice_runs : forall run v0 ops v objs order aki path, run ops v0 = VRet v -> run [] v = VRet v -> listing (v_valid v) objs ->
  ct_maps objs (v_heap v) kempty kempty = VRet (aki, path) -> listing aki order ->
  explorations run v0 [(v, objs, order); (v, objs, order)].
Proof. intros. eapply ex_one; eauto. eapply ex_one; eauto. constructor. Qed.
Lemma cp_again : forall v objs order l, ct objs order v = VRet l -> ctrpki_chains [(v, objs, order); (v, objs, order)] = VRet (l ++ l).
Proof. intros v objs order l E. cbn [ctrpki_chains]. rewrite E. cbn [vbind]. rewrite app_nil_r. reflexivity. Qed.

Lemma cp_obj : forall h (a : nat) c, match deref h a with VRet r => Some (r_obj r) | _ => None end = Some (OCert c) ->
  exists r, deref h a = VRet r /\ r_obj r = OCert c.
Proof. intros h a c E. destruct (deref h a) as [r| |]; [injection E as E; eauto|discriminate|discriminate]. Qed.

Definition cp_run := Validator.run sig_all crl_all (no_dec _) (t_cert w_root) t_roas (no_dec _) (no_dec _) (fun x => x).
Lemma cp_none : forall v, cp_run [] v = VRet v.
Proof. intros v. reflexivity. Qed.
Definition cp_state : validator := match cp_run t_ops (new_validator 50) with VRet v => v | _ => new_validator 0 end.
Lemma cp_first : cp_run t_ops (new_validator 50) = VRet cp_state.
Proof.
  assert (R : returns (cp_run t_ops (new_validator 50)) = true) by (vm_compute; reflexivity).
  unfold cp_state. destruct (cp_run t_ops (new_validator 50)); [reflexivity|discriminate|discriminate].
Qed.
Lemma cp_listing : listing (v_valid cp_state) (t_objs w_root).
Proof. apply t_listing3; try discriminate. intros k. reflexivity. Qed.
Definition cp_twice := [(cp_state, t_objs w_root, cp_order); (cp_state, t_objs w_root, cp_order)].
Lemma cp_maps_is : exists path, ct_maps (t_objs w_root) (v_heap cp_state) kempty kempty =
  VRet (kset (kset (kset kempty (hexs (c_ski w_root)) (hexs (c_aki w_root))) (hexs (c_ski w_ca)) (hexs (c_aki w_ca)))
    (hexs (c_ski (roa_cert w_roa))) (hexs (c_aki (roa_cert w_roa))), path).
Proof.
  destruct (cp_obj (v_heap cp_state) 0 w_root) as (r0 & D0 & E0); [vm_compute; reflexivity|].
  destruct (cp_obj (v_heap cp_state) 1 w_ca) as (r1 & D1 & E1); [vm_compute; reflexivity|].
  destruct (cp_obj (v_heap cp_state) 2 (roa_cert w_roa)) as (r2 & D2 & E2); [vm_compute; reflexivity|].
  exact (cp_maps _ (c_ski w_root) (str "A") (str "O") _ _ _ _ _ _ _ _ _ D0 D1 D2 E0 E1 E2).
Qed.
Lemma cp_order_listing : listing (kset (kset (kset kempty (hexs (c_ski w_root)) (hexs (c_aki w_root))) (hexs (c_ski w_ca)) (hexs (c_aki w_ca)))
    (hexs (c_ski (roa_cert w_roa))) (hexs (c_aki (roa_cert w_roa)))) cp_order.
Proof. apply t_listing3; try discriminate. intros k. reflexivity. Qed.
Definition cp_chains := [[Some t_root; Some t_root]; [Some t_ca; Some t_root; Some t_root]; [Some t_roa; Some t_ca; Some t_root; Some t_root]].
Lemma cp_chains_are : ct (t_objs w_root) cp_order cp_state = VRet cp_chains.
Proof. vm_compute. reflexivity. Qed.

Theorem C84_chains_again_refuted : explorations cp_run (new_validator 50) cp_twice /\
  ct (t_objs w_root) cp_order cp_state = VRet cp_chains /\ ctrpki_chains cp_twice = VRet (cp_chains ++ cp_chains).
Proof.
  split; [|split; [exact cp_chains_are|exact (cp_again _ _ _ _ cp_chains_are)]]. destruct cp_maps_is as (path & M).
  exact (cp_twice_runs cp_run _ t_ops _ _ _ _ path cp_first (cp_none _) cp_listing M cp_order_listing).
Qed.
Print Assumptions C84_chains_again_refuted.
