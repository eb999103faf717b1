(** Concrete certificates and a revocation list, and a repository of them, as
    octets. *)
From Coq Require Import Lia Bool String.
From Verif.Model Require Import Base Str NetIP CertRes Roa Ber Asn1 GoTime Der Tal Cms Validator Explore ObjDer TalText TalDer FileDecoders NetText Output X509.
From Verif.Spec Require Import Addr Trust Discovery ObjSpec OutputSpec EndSpec.
From Verif.Proofs Require Import NetIPProofs StrProofs Witness ValidatorWitness ExploreWitness CmsProofs ObjWitness EndThm EndWitness.

Definition tlv (t : Z) (c : bytes) : bytes :=
  let n := Z.of_nat (List.length c) in
  t :: (if n <? 128 then [n] else if n <? 256 then [129; n] else [130; n / 256; n mod 256]) ++ c.
Definition w_ext (id : bytes) (critical : bool) (v : bytes) : bytes :=
  tlv 48 (tlv 6 id ++ (if critical then tlv 1 [255] else []) ++ tlv 4 v).
Definition w_basic : bytes := w_ext [85; 29; 19] true (tlv 48 (tlv 1 [255])).
(** BasicConstraints with path length 0 *)
Definition w_basic0 : bytes := w_ext [85; 29; 19] true (tlv 48 (tlv 1 [255] ++ tlv 2 [0])).
Definition w_usage (k : Z) : bytes := w_ext [85; 29; 15] true (tlv 3 [0; k]).
Definition w_keys (ski aki : string) : bytes :=
  w_ext [85; 29; 14] false (tlv 4 (str ski)) ++ w_ext [85; 29; 35] false (tlv 48 (tlv 128 (str aki))).
Definition w_ips : bytes := w_ext [43; 6; 1; 5; 5; 7; 1; 7] true ip_ext0.
Definition w_sia : bytes := w_ext [43; 6; 1; 5; 5; 7; 1; 11] false e_access.
Definition w_times : bytes := tlv 48 (tlv 23 (str "200101000000Z") ++ tlv 23 (str "300101000000Z")).
Definition w_name : bytes := tlv 48 [].
Definition w_alg : bytes := tlv 48 (tlv 6 [42; 134; 72; 134; 247; 13; 1; 1; 11] ++ [5; 0]).
(** The signature with [sha0], whatever is signed, and exponent 1 *)
Definition w_sig : bytes := tlv 3 (0 :: [0; 1] ++ repeat 255 8 ++ [0] ++ X509.digest_info ++ repeat 7 32).
Definition w_cert_v (v : bytes) (serial : Z) (exts : bytes) : bytes :=
  tlv 48 (tlv 48 (v ++ tlv 2 [serial] ++ w_alg ++ w_name ++ w_times ++ w_name ++ spki_octets n0 1 ++ tlv 163 (tlv 48 exts))
          ++ w_alg ++ w_sig).
Definition w_cert : Z -> bytes -> bytes := w_cert_v (tlv 160 (tlv 2 [2])).
Definition w_root : bytes := w_cert 1 (w_basic ++ w_usage 6 ++ w_keys "R" "R" ++ w_ips ++ w_sia).
Definition w_end (serial : Z) (ski : string) : bytes := w_cert serial (w_usage 128 ++ w_keys ski "R" ++ w_ips).
(** Two entries *)
Definition w_crl : bytes :=
  tlv 48 (tlv 48 (tlv 2 [1] ++ w_alg ++ w_name ++ tlv 23 (str "100101000000Z") ++ tlv 23 (str "100102000000Z")
                  ++ tlv 48 (tlv 48 (tlv 2 [3] ++ tlv 23 (str "100101000000Z")) ++ tlv 48 (tlv 2 [9] ++ tlv 23 (str "100101000000Z")))
                  ++ tlv 160 (tlv 48 (w_ext [85; 29; 35] false (tlv 48 (tlv 128 (str "R"))))))
          ++ w_alg ++ w_sig).

(** The library, as the current versions are *)
Definition w_no_sig (_ : list Z * bytes) (_ _ _ : bytes) : bool := false.
Definition w_no (_ : bytes) : bool := false.
Definition w_x509 : bytes -> option (cert * list (list Z * bytes)) := x509_cert false true (fun _ => []) w_no.
Definition w_signed : cert -> cert -> bool := x509_signed false true sha0 w_no_sig w_no.
Definition w_crl_signed : cert -> crl -> bool := x509_crl_signed sha0 w_no_sig.

Definition w_mft : bytes := made (w_end 2 "M") (Ret (econtent oid_mft e_mft_octets)) e_mft_octets.
Definition w_roa : bytes := made (w_end 3 "O") (encode_roa 65000 [entry0]) roa_octets0.
Definition w_files : list (bytes * bytes) :=
  [(str "t.tal", e_tal); (str "rsync://r/ta.cer", w_root); (str "rsync://r/ta.mft", w_mft); (str "rsync://r/o.roa", w_roa)].
Definition w_disk : bytes -> option bytes := table w_files.
Definition w_iter : mgr -> vres mgr :=
  explore_iter w_signed w_crl_signed file_tal (file_cert w_x509) (file_roa sha0 w_x509 false) (file_mft sha0 w_x509 false) (x509_crl w_no)
    (fun x => x) w_disk (fun _ => true) sha0 (fun _ => (e_now, e_now)) true true false.
Definition w_run : list pkifile * mgr :=
  odefault ([], init_mgr 0 []) (trace w_iter 20 (init_mgr e_now r_init)).
Definition w_expl : exploration := mkExpl e_now r_init (fst w_run) (snd w_run).
Definition w_valid_roas : list roa := roas_at (m_v (snd w_run)) (str "O").

Lemma w_cache : octet_cache w_disk.
Proof.
  intros k raw H. apply table_in in H.
  assert (C : forallb (fun r => bytes_ok r && match ber2der r with BOk d => Z.of_nat (List.length d) <? 2 ^ 46 | _ => true end)
                      (map snd w_files) = true) by (vm_compute; reflexivity).
  pose proof (proj1 (forallb_forall _ _) C raw H) as X. cbv beta in X. apply andb_true_iff in X. destruct X as (X & Y).
  split; [exact X|]. intros d D. rewrite D in Y. now apply Z.ltb_lt in Y.
Qed.

(** One computation for all that is needed about the run *)
Definition one_key (k : bytes) (l : list bytes) : bool := match l with [k'] => beq k' k | _ => false end.
Definition only_files (l : list pkifile) : bool := forallb (fun f => existsb (beq (compute_path f)) (map fst w_files)) l.
Definition exported_one (x : option (list pkifile * mgr)) : bool :=
  match x with
  | Some (l, s) =>
      only_files l && one_key (str "O") (map (fun x => c_ski (roa_cert x)) (heap_roas (m_v s)))
      && match generate_list true [str "ta"] [str "t.tal"] [roas_at (m_v s) (str "O")] 100 60 with
         | Ret L => match l_data L with
                    | [r] => beq (j_prefix r) (str "10.1.0.0/16") && beq (j_asn r) (str "AS65000")
                    | _ => false
                    end
         | _ => false
         end
  | None => false
  end.
Lemma exported_one_inv : forall x d, exported_one x = true ->
  match x with Some _ => true | None => false end = true /\
  map (fun x => c_ski (roa_cert x)) (heap_roas (m_v (snd (odefault d x)))) = [str "O"] /\
  exists L r, generate_list true [str "ta"] [str "t.tal"] [roas_at (m_v (snd (odefault d x))) (str "O")] 100 60 = Ret L /\
    l_data L = [r] /\ j_prefix r = str "10.1.0.0/16" /\ j_asn r = str "AS65000".
Proof.
  intros [[l s]|] d H; [|discriminate]. unfold exported_one in H. cbn [odefault snd]. apply andb_true_iff in H as [H1 H2].
  apply andb_true_iff in H1 as [_ H1]. split; [reflexivity|]. split.
  - unfold one_key in H1. destruct (map _ _) as [|k [|? ?]]; try discriminate. apply beq_eq in H1. now subst.
  - destruct (generate_list _ _ _ _ _ _) as [L|]; [|discriminate]. destruct (l_data L) as [|r [|? ?]] eqn:E; try discriminate.
    apply andb_true_iff in H2 as [H2 H3]. exists L, r. split; [reflexivity|]. split; [exact E|]. split; now apply beq_eq.
Qed.
Lemma w_exported : exported_one (trace w_iter 20 (init_mgr e_now r_init)) = true.
Proof. vm_compute. reflexivity. Qed.

Lemma w_found : match trace w_iter 20 (init_mgr e_now r_init) with Some _ => true | None => false end = true /\
  map (fun x => c_ski (roa_cert x)) (heap_roas (m_v (snd w_run))) = [str "O"] /\
  exists L r, generate_list true [str "ta"] [str "t.tal"] [w_valid_roas] 100 60 = Ret L /\
    l_data L = [r] /\ j_prefix r = str "10.1.0.0/16" /\ j_asn r = str "AS65000".
Proof. exact (exported_one_inv (trace w_iter 20 (init_mgr e_now r_init)) ([], init_mgr 0 []) w_exported). Qed.
Lemma w_explores : explores w_iter (init_mgr e_now r_init) (fst w_run) (snd w_run).
Proof. exact (proj1 (trace_run w_iter 20 (init_mgr e_now r_init) ([], init_mgr 0 []) (proj1 w_found))). Qed.
Lemma w_all : explored_all sha0 w_x509 false w_signed w_crl_signed (x509_crl w_no) (fun x => x) w_disk (fun _ => true)
  (fun _ => (e_now, e_now)) true true false [w_expl] [w_valid_roas].
Proof.
  constructor; [|constructor]. split; [exact w_explores|]. split.
  - intros x [<-|[]]. split; reflexivity.
  - exact (roas_listed (m_v (snd w_run)) (str "O") (proj1 (proj2 w_found))).
Qed.

(** A certificate with a critical extension that nobody knows, and one for a
    certificate whose path length says there are no further authorities *)
Definition w_unknown : bytes := w_cert 4 (w_usage 128 ++ w_keys "U" "R" ++ w_ips ++ w_ext [42; 3; 4] true [1]).
Definition w_last : bytes := w_cert 5 (w_basic0 ++ w_usage 6 ++ w_keys "L" "R" ++ w_ips).
Definition w_below : bytes := w_cert 6 (w_basic ++ w_usage 6 ++ w_keys "B" "L" ++ w_ips).
(** One that is no authority *)
Definition w_plain : bytes := w_end 7 "R".
Definition w_read (d : bytes) : cert := odefault (mkCert [] [] 0 0 0 [] [] 0 (OtherKey []) [] [] []) (file_cert w_x509 d).
Definition w_list_of (d : bytes) : crl := odefault (mkCrl [] [] []) (x509_crl w_no d).
