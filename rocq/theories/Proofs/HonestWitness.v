(** The small repository of the examples is in order: its ROA, with the
    certificates above it, is what a correctly run authority publishes. *)
From Coq Require Import Lia String.
From Coq Require Import List ZArith.
From Verif.Model Require Import Base NetIP CertRes Roa Str Ber Tal Validator Explore.
From Verif.Spec Require Import Addr Resources Trust Discovery HonestSpec.
From Verif.Proofs Require Import Witness CertProofs ValidatorWitness ExploreWitness ExploreInv.
Import ListNotations.
Open Scope Z_scope.

(** The files in the order in which they are looked at. *)
Definition w_tal := PFile 0 (mkFile [] (str "t.tal") TTal false None) None.
Definition w_root := PFile 1 (mkFile [] (str "rsync://r/ta.cer") TCer true None) (Some w_tal).
Definition w_root_mft := PFile 2 (mkFile (str "rsync://r/") (str "rsync://r/ta.mft") TMft false None) (Some w_root).
Definition w_a := PFile 3 (mkFile [] (str "a.cer") TCer false (Some (blob 2))) (Some w_root_mft).
Definition w_b := PFile 4 (mkFile [] (str "b.cer") TCer false (Some (blob 3))) (Some w_root_mft).
Definition w_a_mft := PFile 5 (mkFile (str "rsync://r/a") (str "rsync://r/a/a.mft") TMft false None) (Some w_a).
Definition w_b_mft := PFile 6 (mkFile (str "rsync://r/b") (str "rsync://r/b/b.mft") TMft false None) (Some w_b).
Definition w_o := PFile 7 (mkFile [] (str "o.roa") TRoa false (Some (blob 21))) (Some w_a_mft).
Definition wP : list pkifile := [w_tal; w_root; w_root_mft; w_a; w_b; w_a_mft; w_b_mft; w_o].

Lemma wP_is : fst (r_trace [] (blob 21) 100) = wP.
Proof. vm_compute. reflexivity. Qed.

Notation w_bears := (bears (r_cert []) r_roa (r_mft (blob 21) 100) r_disk).
Notation w_clear := (clear crl_all (r_cert []) r_roa (r_mft (blob 21) 100) (no_dec _) r_disk (fun x => x) (fun _ => (50, 50)) true true wP 50).
Notation w_honest := (honest sig_all crl_all r_tal (r_cert []) r_roa (r_mft (blob 21) 100) (no_dec _) (fun x => x) r_disk (fun x => x) (fun _ => (50, 50)) true true wP 50).

Ltac held := eexists _, _; split; [split; [vm_compute; reflexivity|vm_compute; reflexivity]|vm_compute; reflexivity].


(** Who has which key identifier. *)
Definition w_keys : list (pkifile * bytes) :=
  [(w_root, str "R"); (w_root_mft, str "m"); (w_a, str "A"); (w_b, str "B"); (w_a_mft, str "n"); (w_b_mft, str "p"); (w_o, str "O")].

Lemma read : forall A (dec : bytes -> option A) f x raw d y, contents r_disk dec f x -> holds r_disk f raw d -> dec d = Some y -> x = y.
Proof. intros A dec f x raw d y (r1 & d1 & H1 & D1) H D. destruct (holds_fun _ _ _ _ _ _ H1 H) as (<- & <-). congruence. Qed.


Lemma hold_blob : forall f n, r_disk (compute_path f) = Some (blob n) -> is_tal (f_type f) = false -> ber2der (blob n) = BOk (blob n) -> holds r_disk f (blob n) (blob n).
Proof. intros f n H T B. split; [exact H|]. rewrite T. exact B. Qed.

Lemma h_root : holds r_disk w_root (blob 1) (blob 1).
Proof. apply hold_blob; vm_compute; reflexivity. Qed.
Lemma h_root_mft : holds r_disk w_root_mft (blob 10) (blob 10).
Proof. apply hold_blob; vm_compute; reflexivity. Qed.
Lemma h_a : holds r_disk w_a (blob 2) (blob 2).
Proof. apply hold_blob; vm_compute; reflexivity. Qed.
Lemma h_b : holds r_disk w_b (blob 3) (blob 3).
Proof. apply hold_blob; vm_compute; reflexivity. Qed.
Lemma h_a_mft : holds r_disk w_a_mft (blob 20) (blob 20).
Proof. apply hold_blob; vm_compute; reflexivity. Qed.
Lemma h_b_mft : holds r_disk w_b_mft (blob 30) (blob 30).
Proof. apply hold_blob; vm_compute; reflexivity. Qed.
Lemma h_o : holds r_disk w_o (blob 21) (blob 21).
Proof. apply hold_blob; vm_compute; reflexivity. Qed.

Lemma key_of : forall f c, In f wP -> w_bears f c -> In (f, c_ski c) w_keys.
Proof.
  intros f c IN B. unfold wP in IN. cbn [In] in IN. unfold w_keys. cbn [In].
  destruct IN as [<-|[<-|[<-|[<-|[<-|[<-|[<-|[<-|[]]]]]]]]]; cbn [HonestSpec.bears f_type w_tal w_root w_root_mft w_a w_b w_a_mft w_b_mft w_o f_desc fd_type] in B.
  - contradiction.
  - left. assert (c = x_root) as -> by (eapply (read _ (r_cert [])); [exact B|exact h_root|vm_compute; reflexivity]). reflexivity.
  - right; left. destruct B as (m & B & <- & _). assert (m = r_root_mft) as -> by (eapply (read _ (r_mft (blob 21) 100)); [exact B|exact h_root_mft|vm_compute; reflexivity]). reflexivity.
  - right; right; left. assert (c = x_a) as -> by (eapply (read _ (r_cert [])); [exact B|exact h_a|vm_compute; reflexivity]). reflexivity.
  - do 3 right; left. assert (c = x_b []) as -> by (eapply (read _ (r_cert [])); [exact B|exact h_b|vm_compute; reflexivity]). reflexivity.
  - do 4 right; left. destruct B as (m & B & <- & _). assert (m = r_a_mft (blob 21) 100) as -> by (eapply (read _ (r_mft (blob 21) 100)); [exact B|exact h_a_mft|vm_compute; reflexivity]). reflexivity.
  - do 5 right; left. destruct B as (m & B & <- & _). assert (m = r_b_mft) as -> by (eapply (read _ (r_mft (blob 21) 100)); [exact B|exact h_b_mft|vm_compute; reflexivity]). reflexivity.
  - do 6 right; left. destruct B as (m & B & <-). assert (m = x_roa) as -> by (eapply (read _ r_roa); [exact B|exact h_o|vm_compute; reflexivity]). reflexivity.
Qed.

Lemma key_once : forall f c f' k, In f wP -> w_bears f c -> In (f', k) w_keys -> c_ski c = k -> f = f'.
Proof.
  intros f c f' k IN B K E. apply key_of in B; auto. rewrite E in B. unfold w_keys in B, K. cbn [In] in B, K.
  repeat (destruct K as [K|K]; [apply pair_equal_spec in K; destruct K as (<- & <-);
    repeat (destruct B as [B|B]; [apply pair_equal_spec in B; destruct B as (B1 & B2); first [discriminate B2|exact (eq_sym B1)]|]); contradiction|]).
  contradiction.
Qed.

(** What a manifest lists is there and in time. *)
Lemma entries_good : forall f f' p i, nth_error wP i = Some f' -> listed f' p f ->
  good_copy r_disk (fun x => x) f' /\ forall m, contents r_disk (r_mft (blob 21) 100) p m -> mft_current (50, 50) m.
Proof.
  intros f f' p i N (L1 & L2 & L3 & L4). apply nth_error_In in N. unfold wP in N. cbn [In] in N.
  destruct N as [<-|[<-|[<-|[<-|[<-|[<-|[<-|[<-|[]]]]]]]]]; cbn [f_parent w_tal w_root w_root_mft w_a w_b w_a_mft w_b_mft w_o] in L1;
    try discriminate L1; injection L1 as <-; try discriminate L2; split.
  - exists (blob 2), (blob 2). split; [exact h_a|]. intros h H. cbn in H. now injection H as <-.
  - intros m CM. assert (m = r_root_mft) as -> by (eapply (read _ (r_mft (blob 21) 100)); [exact CM|exact h_root_mft|vm_compute; reflexivity]). split; vm_compute; discriminate.
  - exists (blob 3), (blob 3). split; [exact h_b|]. intros h H. cbn in H. now injection H as <-.
  - intros m CM. assert (m = r_root_mft) as -> by (eapply (read _ (r_mft (blob 21) 100)); [exact CM|exact h_root_mft|vm_compute; reflexivity]). split; vm_compute; discriminate.
  - exists (blob 21), (blob 21). split; [exact h_o|]. intros h H. cbn in H. now injection H as <-.
  - intros m CM. assert (m = r_a_mft (blob 21) 100) as -> by (eapply (read _ (r_mft (blob 21) 100)); [exact CM|exact h_a_mft|vm_compute; reflexivity]). split; vm_compute; discriminate.
Qed.

Lemma clear_of : forall f c raw d, In (f, c_ski c) w_keys -> holds r_disk f raw d -> (forall h, fd_hash (f_desc f) = Some h -> raw = h) ->
  in_window c 50 -> w_clear f c.
Proof.
  intros f c raw d K H HH W. constructor.
  - exists raw, d. auto.
  - exact W.
  - intros f' c' IN B E. exact (key_once f' c' f (c_ski c) IN B K E).
  - intros f' l n _ _ (r1 & d1 & _ & D) _ _. discriminate D.
  - intros i f' p N L. destruct (entries_good f f' p i N L) as (A & B). auto.
Qed.

(** Resources. *)
Lemma den : forall a b c d p, bytes_ok [a; b; c; d] = true -> 0 <= p <= 32 ->
  denotes (pfx (ip4 a b c d) p) 4 (first_addr 32 p (addr_val [a; b; c; d])) (last_addr 32 p (addr_val [a; b; c; d])).
Proof. intros a b c d p B R. apply (den_prefix (ip4 a b c d) p); [now apply ip4_plain|exact R]. Qed.

Lemma within_pfx : forall pc c e e' lo hi lo' hi', c_ips pc = [e] -> c_ips c = [e'] -> c_asns c = [] ->
  denotes e 4 lo hi -> denotes e' 4 lo' hi' -> lo <= lo' -> lo' <= hi' -> hi' <= hi -> within pc c.
Proof.
  intros pc c e e' lo hi lo' hi' EP EC EA D D' H1 H2 H3. unfold within. rewrite EP, EC, EA. repeat split.
  - constructor; [left; eauto|constructor].
  - constructor; [|constructor]. right. exists 4%nat, lo', hi'. split; auto. split; [exact H2|discriminate].
  - constructor.
  - destruct H as [<-|[]]. destruct (denotes_fun _ _ _ _ _ _ _ D' H0) as (<- & <- & <-). exists e, lo, hi. split; [now left|]. auto.
  - intros (x & [<-|[]] & IH). destruct D; inversion IH.
  - intros; contradiction.
  - destruct H.
Qed.

Lemma w_honest_root : w_honest w_root x_root.
Proof.
  apply (hon_anchor _ _ _ _ _ _ _ _ _ _ _ _ _ _ _ w_root w_tal x_root 77 3).
  - right. left. reflexivity.
  - reflexivity.
  - exists (blob 1), (blob 1). split; [exact h_root|vm_compute; reflexivity].
  - reflexivity.
  - reflexivity.
  - intros q t IN _ (r1 & d1 & _ & D) _. unfold r_tal, table in D. cbn [find fst] in D. destruct (beq (blob 0) d1); [|discriminate D]. injection D as <-. auto.
  - reflexivity.
  - reflexivity.
  - intros f' c' IN B E. apply (key_once f' c' w_root (str "R") IN B); [now left|exact E].
  - apply (clear_of w_root x_root (blob 1) (blob 1)); [now left|exact h_root|intros h H; discriminate H|split; cbn; lia].
Qed.

Lemma w_honest_a : w_honest w_a x_a.
Proof.
  apply (hon_issued _ _ _ _ _ _ _ _ _ _ _ _ _ _ _ w_a x_a w_root x_root).
  - do 3 right. left. reflexivity.
  - exists (blob 2), (blob 2). split; [exact h_a|vm_compute; reflexivity].
  - right. exists w_root_mft. repeat split.
  - exact w_honest_root.
  - reflexivity.
  - reflexivity.
  - refine (within_pfx x_root x_a _ _ _ _ _ _ eq_refl eq_refl eq_refl (den 10 0 0 0 8 eq_refl _) (den 10 1 0 0 16 eq_refl _) _ _ _); vm_compute; try split; discriminate.
  - apply (clear_of w_a x_a (blob 2) (blob 2)); [do 2 right; now left|exact h_a|intros h H; cbn in H; now injection H as <-|split; cbn; lia].
Qed.

Lemma w_honest_o : w_honest w_o (roa_cert x_roa).
Proof.
  apply (hon_issued _ _ _ _ _ _ _ _ _ _ _ _ _ _ _ w_o (roa_cert x_roa) w_a x_a).
  - do 7 right. left. reflexivity.
  - exists x_roa. split; [|reflexivity]. exists (blob 21), (blob 21). split; [exact h_o|vm_compute; reflexivity].
  - right. exists w_a_mft. repeat split.
  - exact w_honest_a.
  - reflexivity.
  - reflexivity.
  - refine (within_pfx x_a (roa_cert x_roa) _ _ _ _ _ _ eq_refl eq_refl eq_refl (den 10 1 0 0 16 eq_refl _) (den 10 1 3 0 24 eq_refl _) _ _ _); vm_compute; try split; discriminate.
  - apply (clear_of w_o (roa_cert x_roa) (blob 21) (blob 21)); [do 6 right; now left|exact h_o|intros h H; cbn in H; now injection H as <-|split; cbn; lia].
Qed.

Lemma w_undisputed : undisputed wP w_a_mft (mkFile [] (str "o.roa") (determine_type (str "o.roa")) false (Some (blob 21))).
Proof.
  intros f IN E. unfold wP in IN. cbn [In] in IN.
  destruct IN as [<-|[<-|[<-|[<-|[<-|[<-|[<-|[<-|[]]]]]]]]]; vm_compute in E; try discriminate E. split; reflexivity.
Qed.

(** The same repository, where the manifest of B carries a certificate with key
    identifier [k]; what B signs for the identifier of A's ROA does not verify. *)
Definition t_sig (p c : cert) : bool := negb (beq (c_ski p) (str "B") && beq (c_ski c) (str "O")).
Definition t_mft (k : bytes) : bytes -> option mft :=
  table [(blob 10, r_root_mft); (blob 20, r_a_mft (blob 21) 100); (blob 30, x_mft k (str "B") [] 0 100)].
Definition t_iter (k : bytes) : mgr -> vres mgr :=
  explore_iter t_sig crl_all r_tal (r_cert []) r_roa (t_mft k) (no_dec _) (fun x => x) r_disk (fun _ => true) (fun x => x)
    (fun _ => (50, 50)) true true false.
Definition t_trace (k : bytes) : list pkifile * mgr :=
  match trace (t_iter k) 20 (init_mgr 50 r_init) with Some x => x | None => ([], init_mgr 50 r_init) end.
Lemma t_explored : forall k, match trace (t_iter k) 20 (init_mgr 50 r_init) with Some _ => true | None => false end = true ->
  explores (t_iter k) (init_mgr 50 r_init) (fst (t_trace k)) (snd (t_trace k)) /\ m_queue (snd (t_trace k)) = [].
Proof.
  intros k H. unfold t_trace. destruct (trace _ _ _) as [(l & s)|] eqn:E; [|discriminate]. exact (trace_explores _ _ _ _ _ E).
Qed.
Lemma t_runs : forall k, k = str "p" \/ k = str "O" ->
  explores (t_iter k) (init_mgr 50 r_init) (fst (t_trace k)) (snd (t_trace k)) /\ m_queue (snd (t_trace k)) = [].
Proof. intros k [E|E]; subst k; apply t_explored; vm_compute; reflexivity. Qed.
Lemma t_suppressed :
  v_validroa (m_v (snd (t_trace (str "p")))) (str "O") <> None /\
  v_validroa (m_v (snd (t_trace (str "O")))) (str "O") = None /\
  v_valid (m_v (snd (t_trace (str "O")))) (str "A") <> None /\
  t_sig (x_b []) (mft_cert (x_mft (str "O") (str "B") [] 0 100)) = false.
Proof. vm_compute. repeat split; discriminate. Qed.

Lemma w_sound : sound_roa x_roa.
Proof.
  refine (conj _ (conj _ (conj eq_refl _))).
  - constructor; [|constructor]. left. eexists _, _, _. apply (den 10 1 3 0 24 eq_refl). lia.
  - intros fam (x & [<-|[]] & IH). inversion IH.
  - intros e [<-|[]]. exists (ip4 10 1 3 0), 24. split; [reflexivity|]. split; [apply ip4_plain; reflexivity|].
    split; [vm_compute; split; discriminate|]. split; [vm_compute; split; discriminate|]. split.
    + split; [vm_compute; discriminate|discriminate].
    + eexists _, _, _. split; [left; reflexivity|]. split; [apply (den 10 1 3 0 24 eq_refl); lia|]. split; vm_compute; discriminate.
Qed.
