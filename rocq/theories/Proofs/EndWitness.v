(** A repository of four files, as octets. *)
From Coq Require Import Lia Bool String.
From Verif.Model Require Import Base Str NetIP CertRes Roa Ber Asn1 GoTime Der Tal Cms Validator Explore ObjDer TalText TalDer FileDecoders NetText Output.
From Verif.Spec Require Import Addr Resources Trust Discovery ObjSpec OutputSpec EndSpec.
From Verif.Proofs Require Import NetIPProofs Witness ValidatorWitness ExploreWitness CmsProofs ObjWitness EndThm.

Definition e_cert (s : Z) : bytes := 48 :: 35 :: (48 :: 18 :: 2 :: 1 :: s :: rsa_encryption) ++ rsa_encryption.
Definition e_access : bytes := odefault [] (encode_sia
  [([1; 3; 6; 1; 5; 5; 7; 48; 5], str "rsync://r/"); ([1; 3; 6; 1; 5; 5; 7; 48; 10], str "rsync://r/ta.mft")]).
Definition e_bare (ski aki : string) (s : Z) : cert :=
  mkCert (str ski) (str aki) s 0 2000000000 [] [] 1 (RSAPtr n0 1) [] [] [].
Definition e_ips : list Z * bytes := ([1; 3; 6; 1; 5; 5; 7; 1; 7], ip_ext0).
(** What crypto/x509 makes of the three certificates. *)
Definition e_x509 : bytes -> option (cert * list (list Z * bytes)) := table
  [(e_cert 1, (e_bare "R" "R" 1, [e_ips; ([1; 3; 6; 1; 5; 5; 7; 1; 11], e_access)]));
   (e_cert 2, (e_bare "M" "R" 2, [e_ips])); (e_cert 3, (e_bare "O" "R" 3, [e_ips]))].
Definition e_tal : bytes := tal_text [str "rsync://r/ta.cer"] (spki_octets n0 1) 64.
Definition e_mft_octets : bytes := odefault [] (marshal t_mft_content (v_mft_content
  (mkMC (Some 7) time_0 (mkTime 2026 11 17 12 30 0 0) oid_sha256 [(str "o.roa", mkBits (repeat 7 32) 256)]))).
Definition e_mft : bytes := made (e_cert 2) (Ret (econtent oid_mft e_mft_octets)) e_mft_octets.
Definition e_roa : bytes := made (e_cert 3) (encode_roa 65000 [entry0]) roa_octets0.
(** The cache with the given octets for the ROA *)
Definition e_files_of (roa : bytes) : list (bytes * bytes) :=
  [(str "t.tal", e_tal); (str "rsync://r/ta.cer", e_cert 1); (str "rsync://r/ta.mft", e_mft); (str "rsync://r/o.roa", roa)].
Definition e_files : list (bytes * bytes) := e_files_of e_roa.
Definition e_disk : bytes -> option bytes := table e_files.
Definition e_now : Z := unix time_0.
Definition e_iter_of (disk : bytes -> option bytes) : mgr -> vres mgr :=
  explore_iter sig_all crl_all file_tal (file_cert e_x509) (file_roa sha0 e_x509 true) (file_mft sha0 e_x509 true) (no_dec _)
    (fun x => x) disk (fun _ => true) sha0 (fun _ => (e_now, e_now)) true true false.
Definition e_iter : mgr -> vres mgr := e_iter_of e_disk.
Definition e_run : list pkifile * mgr :=
  odefault ([], init_mgr 0 []) (trace e_iter 20 (init_mgr e_now r_init)).
Definition e_expl : exploration := mkExpl e_now r_init (fst e_run) (snd e_run).
Definition heap_roas (v : validator) : list roa :=
  flat_map (fun r => match r_obj r with ORoa x => [x] | _ => [] end) (v_heap v).
Definition roas_at (v : validator) (k : bytes) : list roa :=
  match v_validroa v k with
  | Some a => match nth_error (v_heap v) a with
              | Some r => match r_obj r with ORoa x => [x] | _ => [] end
              | None => []
              end
  | None => []
  end.
Lemma roas_listed : forall v k, map (fun x => c_ski (roa_cert x)) (heap_roas v) = [k] ->
  lists_valid_roas v (roas_at v k).
Proof.
  intros v k M.
  assert (K : forall r x, In r (v_heap v) -> r_obj r = ORoa x -> c_ski (roa_cert x) = k).
  { intros r x I O. assert (H : In x (heap_roas v)) by (apply in_flat_map; exists r; split; [exact I|rewrite O; now left]).
    apply (in_map (fun x => c_ski (roa_cert x))) in H. rewrite M in H. destruct H as [H|[]]. now symmetry. }
  intros x. unfold roas_at. split.
  - intros I. destruct (v_validroa v k) as [a|] eqn:E; [|contradiction].
    destruct (nth_error (v_heap v) a) as [r|] eqn:N; [|contradiction].
    destruct (r_obj r) as [?|y|?|?|?] eqn:O; try contradiction. destruct I as [<-|[]].
    exists a. split; [now rewrite (K r y (nth_error_In _ _ N) O)|]. now exists r.
  - intros (a & V & r & N & O). rewrite (K r x (nth_error_In _ _ N) O) in V. rewrite V, N, O. now left.
Qed.
Definition e_valid_roas : list roa := roas_at (m_v (snd e_run)) (str "O").

Lemma table_in : forall A (l : list (bytes * A)) k a, table l k = Some a -> In a (map snd l).
Proof.
  intros A l k a H. unfold table in H. destruct (find _ l) as [(k' & a')|] eqn:E; [|discriminate].
  apply find_some in E. destruct E as (I & _). assert (a' = a) by congruence. subst. apply in_map_iff. now exists (k', a).
Qed.

Lemma e_cache : octet_cache e_disk.
Proof.
  intros k raw H. apply table_in in H.
  assert (C : forallb (fun r => bytes_ok r && match ber2der r with BOk d => Z.of_nat (List.length d) <? 2 ^ 46 | _ => true end)
                      (map snd e_files) = true) by (vm_compute; reflexivity).
  pose proof (proj1 (forallb_forall _ _) C raw H) as X. cbv beta in X. apply andb_true_iff in X. destruct X as (X & Y).
  split; [exact X|]. intros d D. rewrite D in Y. now apply Z.ltb_lt in Y.
Qed.

Lemma trace_run : forall iter fuel s d, match trace iter fuel s with Some _ => true | None => false end = true ->
  explores iter s (fst (odefault d (trace iter fuel s))) (snd (odefault d (trace iter fuel s))) /\
  m_queue (snd (odefault d (trace iter fuel s))) = [].
Proof.
  intros iter fuel s d H. destruct (trace iter fuel s) as [(l & s')|] eqn:E; [|discriminate]. exact (trace_explores _ _ _ _ _ E).
Qed.
Lemma e_explores : explores e_iter (init_mgr e_now r_init) (fst e_run) (snd e_run) /\ m_queue (snd e_run) = [].
Proof. apply trace_run. vm_compute. reflexivity. Qed.

Lemma e_roas : lists_valid_roas (m_v (x_mgr e_expl)) e_valid_roas.
Proof. apply roas_listed. vm_compute. reflexivity. Qed.

Lemma e_all : explored_all sha0 e_x509 true sig_all crl_all (no_dec _) (fun x => x) e_disk (fun _ => true) (fun _ => (e_now, e_now))
  true true false [e_expl] [e_valid_roas].
Proof.
  constructor; [|constructor]. split; [exact (proj1 e_explores)|]. split; [|exact e_roas].
  intros x [<-|[]]. split; reflexivity.
Qed.

Definition heap_ips (v : validator) : list (list ipinfo) :=
  flat_map (fun r => match r_obj r with OCert c => [c_ips c] | _ => [] end) (v_heap v).
Lemma ips_listed : forall v c, valid_cert v c -> In (c_ips c) (heap_ips v).
Proof.
  intros v c (a & _ & r & N & O). apply in_flat_map. exists r. split; [exact (nth_error_In _ _ N)|]. rewrite O. now left.
Qed.
Lemma e_valid_certs : forall c, valid_cert (m_v (x_mgr e_expl)) c -> c_ips c = [INet (Some net10)].
Proof.
  intros c V. apply ips_listed in V.
  assert (M : heap_ips (m_v (x_mgr e_expl)) = repeat [INet (Some net10)] 3) by (vm_compute; reflexivity).
  rewrite M in V. now apply repeat_spec in V.
Qed.

Lemma e_plain : plain_certs e_disk (file_cert e_x509) e_expl.
Proof.
  assert (NI : forall c fam, valid_cert (m_v (x_mgr e_expl)) c -> ~ inherited (c_ips c) fam).
  { intros c fam V (i & I & H). rewrite (e_valid_certs c V) in I. destruct I as [<-|[]]; inversion H. }
  split; [|split].
  - intros c V. rewrite (e_valid_certs c V). constructor; [|constructor].
    change (INet (Some net10)) with (INet (Some (mkNet (ip4 10 0 0 0) (cidr_mask 8 32)))). right. eexists _, _, _.
    split; [apply den_prefix; [plain|unfold addr_bits; cbn; lia]|split; [vm_compute; discriminate|discriminate]].
  - intros f c fam _ _ _ _ V. now apply NI.
  - intros c p fam V P _ H. now apply NI.
Qed.
