(** The repository of [X509Witness], downloaded. *)
From Coq Require Import List ZArith Lia Bool String.
From Verif.Model Require Import Base Str Base64 NetIP CertRes Roa Ber Asn1 GoTime Der Tal Validator Explore ObjDer TalText TalDer FileDecoders NetText Output StateFile X509 Paths Cache Rrdp RrdpXml XmlLex RrdpHttp Pool Octo NetCache.
From Verif.Spec Require Import Addr Resources Trust Discovery OutputSpec EndSpec StateSpec VerdictSpec B64 PathSpec RrdpSpec RrdpHttpSpec NetCacheSpec.
From Verif.Proofs Require Import StrProofs Witness ObjWitness ExploreWitness EndWitness EndThm X509Witness VerdictWitness RrdpProofs RrdpCrash CacheProofs XmlLexRun RrdpHttpThm NetCacheProofs NetCacheThm.
Import ListNotations.
Open Scope Z_scope.

Definition n_cwd : loc := [str "w"].
Definition n_base : bytes := str "cache/".
(** For any octets, so that nothing has to be computed with them *)
Definition g_start (tal : bytes) : fs := fun l =>
  if leq l [] then Some Dir else if leq l [str "w"] then Some Dir else if leq l [str "w"; str "t.tal"] then Some (File tal) else None.
Definition n_tal : tal := mkTal [str "rsync://r/ta.cer"; str "https://r/none.cer"; str "https://r/ta.cer"] 1 (RSAPtr 77 3).
Definition g_web (root u : bytes) : answer := if beq u (str "https://r/ta.cer") then w_doc root else w_404.
Definition g_files (root mft roa : bytes) : fs := fun l =>
  if leq l [str "w"; str "cache"; str "r"; str "ta.mft"] then Some (File mft)
  else if leq l [str "w"; str "cache"; str "r"; str "o.roa"] then Some (File roa)
  else if leq l [str "w"; str "cache"; str "r"; str "ta.cer"] then Some (File root) else None.
Definition n_texts (e : event) (s : fs) : bytes := octo_text (e_path e) (str "no space").
Definition n_run : list source -> fs -> fs :=
  run_sources response_limit no_more no_more false n_texts (fun _ => 0) true (fun x => x) n_cwd n_base.
Definition g_srcs (root mft roa : bytes) : list source := [FromHttp n_tal (g_web root); FromRsync (str "rsync://r/") (g_files root mft roa)].
Definition g_disk (tal root mft roa : bytes) : bytes -> option bytes := disk_of n_cwd n_base (n_run (g_srcs root mft roa) (g_start tal)).
Lemma g_read : forall tal root mft roa,
  g_disk tal root mft roa (str "t.tal") = Some tal /\ g_disk tal root mft roa (str "rsync://r/ta.cer") = Some root /\
  g_disk tal root mft roa (str "rsync://r/ta.mft") = Some mft /\ g_disk tal root mft roa (str "rsync://r/o.roa") = Some roa.
Proof. intros. split; [|split; [|split]]; vm_compute; reflexivity. Qed.
Definition n_start : fs := g_start e_tal.
Definition n_srcs : list source := g_srcs w_root w_mft w_roa.
Definition n_disk : bytes -> option bytes := g_disk e_tal w_root w_mft w_roa.
Lemma n_base_ok : n_base <> [].
Proof. discriminate. Qed.
Lemma n_rooted : rooted_fs n_start.
Proof. reflexivity. Qed.

Lemma pick3 : forall (a b c : bool) (x y z u : bytes),
  (if a then Some (File x) else if b then Some (File y) else if c then Some (File z) else None) = Some (File u) -> u = x \/ u = y \/ u = z.
Proof. intros [] [] []; intros x y z u H; (injection H as ->; auto) || discriminate H. Qed.
Lemma pick1 : forall (a b c : bool) (x u : bytes),
  match (if a then Some Dir else if b then Some Dir else if c then Some (File x) else None) with Some (File y) => Some y | _ => None end
    = Some u -> u = x.
Proof. intros [] [] []; intros x u H; (injection H as ->; reflexivity) || discriminate H. Qed.
Lemma pick_doc : forall (a : bool) (x u : bytes), (if a then w_doc x else w_404) = Response 200 u None -> u = x.
Proof. intros [] x u H; (injection H as ->; reflexivity) || discriminate H. Qed.

(** Every file is one of the four. *)
Definition w_four : list bytes := [e_tal; w_root; w_mft; w_roa].
Lemma four_files : map snd w_files = w_four.
Proof. reflexivity. Qed.
Lemma n_four : forall p x, n_disk p = Some x -> In x w_four.
Proof.
  intros p x H. apply (disk_origin _ _ _ _ _ _ _ _ _ _ n_base_ok _ _ _ _ n_rooted) in H. destruct H as [H|(src & I & D)].
  - apply pick1 in H. subst x. now left.
  - destruct I as [<-|[<-|[]]]; cbn [delivers] in D.
    + destruct D as (_ & u & _ & E & _). apply pick_doc in E. subst x. right. now left.
    + destruct D as (E & _). apply pick3 in E. destruct E as [ -> | [ -> | -> ] ]; [right; right; now left|right; right; right; now left|right; now left].
Qed.
Lemma table4 : forall a b c d : bytes,
  let t := table [(str "t.tal", a); (str "rsync://r/ta.cer", b); (str "rsync://r/ta.mft", c); (str "rsync://r/o.roa", d)] in
  t (str "t.tal") = Some a /\ t (str "rsync://r/ta.cer") = Some b /\ t (str "rsync://r/ta.mft") = Some c /\ t (str "rsync://r/o.roa") = Some d.
Proof. intros. split; [|split; [|split]]; vm_compute; reflexivity. Qed.
Lemma four_disk : forall x, In x w_four -> exists k, w_disk k = Some x.
Proof.
  destruct (table4 e_tal w_root w_mft w_roa) as (A & B & C & D).
  intros x [<-|[<-|[<-|[<-|[]]]]]; [exact (ex_intro _ _ A)|exact (ex_intro _ _ B)|exact (ex_intro _ _ C)|exact (ex_intro _ _ D)].
Qed.
Lemma n_cache : octet_cache n_disk.
Proof. intros k raw H. apply n_four in H. destruct (four_disk raw H) as (k' & E). exact (w_cache k' raw E). Qed.
Definition n_iter : mgr -> vres mgr :=
  explore_iter w_signed w_crl_signed file_tal (file_cert w_x509) (file_roa sha0 w_x509 false) (file_mft sha0 w_x509 false) (x509_crl w_no)
    (fun x => x) n_disk (fun _ => true) sha0 (fun _ => (e_now, e_now)) true true false.
Definition n_trace : list pkifile * mgr := odefault ([], init_mgr 0 []) (trace n_iter 20 (init_mgr e_now r_init)).
Definition n_expl : exploration := mkExpl e_now r_init (fst n_trace) (snd n_trace).
Definition n_roas : list roa := roas_at (m_v (snd n_trace)) (str "O").
(** The run reads the files of [w_files] only, and these are the same. *)
Lemma iter_same : forall f q s, m_queue s = f :: q -> w_disk (compute_path f) = n_disk (compute_path f) -> w_iter s = n_iter s.
Proof.
  intros f q s Q E. unfold w_iter, n_iter, explore_iter. rewrite Q. unfold explore_file, get_next_file, get_file. now rewrite E.
Qed.
Lemma trace_same : forall fuel s l s', trace w_iter fuel s = Some (l, s') ->
  (forall f, In f l -> w_disk (compute_path f) = n_disk (compute_path f)) -> trace n_iter fuel s = Some (l, s').
Proof.
  induction fuel as [|n IH]; intros s l s' H E; cbn [trace] in *; destruct (m_queue s) as [|f q] eqn:Q; try exact H.
  destruct (w_iter s) as [s1| |] eqn:W; try discriminate H. destruct (trace w_iter n s1) as [[l1 s2]|] eqn:T; [|discriminate H].
  injection H as <- <-. rewrite <- (iter_same f q s Q (E f (or_introl eq_refl))), W.
  rewrite (IH s1 l1 s2 T); [reflexivity|]. intros g I. apply E. now right.
Qed.
Lemma n_names : forall k, In k (map fst w_files) -> w_disk k = n_disk k.
Proof.
  destruct (g_read e_tal w_root w_mft w_roa) as (A & B & C & D). destruct (table4 e_tal w_root w_mft w_roa) as (A' & B' & C' & D').
  intros k [<-|[<-|[<-|[<-|[]]]]]; unfold fst; [exact (eq_trans A' (eq_sym A))|exact (eq_trans B' (eq_sym B))|exact (eq_trans C' (eq_sym C))|exact (eq_trans D' (eq_sym D))].
Qed.
Lemma only_same : forall l, only_files l = true -> forall f, In f l -> w_disk (compute_path f) = n_disk (compute_path f).
Proof.
  intros l H f I. pose proof (proj1 (forallb_forall _ _) H f I) as X. apply existsb_exists in X. destruct X as (k & K & E).
  apply beq_eq in E. rewrite E. exact (n_names k K).
Qed.
Lemma exported_same : forall x y, exported_one x = true ->
  (forall l s, x = Some (l, s) -> only_files l = true -> y = x) -> exported_one y = true.
Proof.
  intros [[l s]|] y H E; [|discriminate H]. rewrite (E l s eq_refl); [exact H|].
  unfold exported_one in H. apply andb_true_iff in H as [H _]. now apply andb_true_iff in H as [H _].
Qed.
Lemma n_exported : exported_one (trace n_iter 20 (init_mgr e_now r_init)) = true.
Proof.
  refine (exported_same _ _ w_exported _). intros l s E O. rewrite E. exact (trace_same _ _ _ _ E (only_same l O)).
Qed.
Lemma n_found : match trace n_iter 20 (init_mgr e_now r_init) with Some _ => true | None => false end = true /\
  map (fun x => c_ski (roa_cert x)) (heap_roas (m_v (snd n_trace))) = [str "O"] /\
  exists L r, generate_list true [str "ta"] [str "t.tal"] [n_roas] 100 60 = Ret L /\
    l_data L = [r] /\ j_prefix r = str "10.1.0.0/16" /\ j_asn r = str "AS65000".
Proof. exact (exported_one_inv (trace n_iter 20 (init_mgr e_now r_init)) ([], init_mgr 0 []) n_exported). Qed.
Lemma n_all : explored_all sha0 w_x509 false w_signed w_crl_signed (x509_crl w_no) (fun x => x) n_disk (fun _ => true)
  (fun _ => (e_now, e_now)) true true false [n_expl] [n_roas].
Proof.
  constructor; [|constructor]. split; [|split].
  - exact (proj1 (trace_run n_iter 20 (init_mgr e_now r_init) ([], init_mgr 0 []) (proj1 n_found))).
  - intros x [<-|[]]. split; reflexivity.
  - exact (roas_listed (m_v (snd n_trace)) (str "O") (proj1 (proj2 n_found))).
Qed.
Lemma n_anchors : plain_anchors n_disk (file_cert w_x509) n_expl.
Proof.
  intros f c _ FT _ (raw & d & (H & B) & DC) _. unfold is_tal in B. rewrite FT in B. apply n_four in H. rewrite <- four_files in H.
  pose proof (proj1 (forallb_forall _ _) w_ips10 raw H) as X. unfold ips10 in X. rewrite B, DC in X.
  destruct (c_ips c) as [|[[n|]|?|?] [|? ?]]; try discriminate X. apply andb_true_iff in X as [X1 X2]. apply beq_eq in X1, X2.
  constructor; [|constructor]. left. destruct n as [ip m]. cbn [nip nmask] in X1, X2. subst.
  change (mkNet [10; 0; 0; 0] [255; 0; 0; 0]) with (mkNet (ip4 10 0 0 0) (cidr_mask 8 32)).
  eexists _, _, _. apply den_prefix; [plain|unfold addr_bits; cbn; lia].
Qed.
Lemma n_bytes : forall L, generate_list true [str "ta"] [str "t.tal"] [n_roas] 100 60 = Ret L ->
  forall r, l_data L = [r] -> j_prefix r = str "10.1.0.0/16" -> j_asn r = str "AS65000" -> byte_list L.
Proof.
  intros L G r D P A. destruct (unsigned _ _ _ _ _ _ _ G) as (S1 & S2). split; [rewrite S1; reflexivity|]. split; [rewrite S2; reflexivity|].
  rewrite D. constructor; [|constructor]. rewrite P, A. split; [reflexivity|]. split; [reflexivity|].
  assert (I : In r (l_data L)) by (rewrite D; left; reflexivity).
  destruct (exported_octets sha0 (fun x => eq_refl) _ _ _ _ _ _ _ _ _ _ _ _ n_cache _ _ _ _ _ _ _ _ n_all G r I)
    as (j & q & f & raw & d & asn & entries & e & c & NQ & _ & _ & _ & _ & _ & -> & _). cbn [j_ta].
  destruct j as [|[|j]]; [reflexivity|discriminate NQ|discriminate NQ].
Qed.

(** An update from a snapshot, for the host of its object and for another one. *)
Definition n_snap (domain : bytes) : source :=
  FromRrdp domain (str "https://r/n.xml") [] 0 (w_web (w_doc o_snapshot) w_404).
Lemma n_snapshots :
  disk_of n_cwd n_base (n_run [n_snap (str "rsync://h/")] n_start) (str "rsync://h/m/a.cer") = Some (str "hello") /\
  disk_of n_cwd n_base (n_run [n_snap (str "rsync://k/")] n_start) (str "rsync://h/m/a.cer") = None /\
  disk_of n_cwd n_base (n_run n_srcs n_start) (str "rsync://r/ta.cer") = Some w_root /\
  disk_of n_cwd n_base (n_run n_srcs n_start) (str "t.tal") = Some e_tal.
Proof.
  destruct (g_read e_tal w_root w_mft w_roa) as (A & B & _).
  assert (G : forall tal,
    disk_of n_cwd n_base (n_run [n_snap (str "rsync://h/")] (g_start tal)) (str "rsync://h/m/a.cer") = Some (str "hello") /\
    disk_of n_cwd n_base (n_run [n_snap (str "rsync://k/")] (g_start tal)) (str "rsync://h/m/a.cer") = None).
  { intros tal. split; vm_compute; reflexivity. }
  destruct (G e_tal) as [G1 G2]. split; [exact G1|]. split; [exact G2|]. split; [exact B|exact A].
Qed.

(** Updates from the snapshot and from a delta that meet the conditions. *)
Definition n_notif : notif :=
  match parse_root_octets no_more no_more false o_notification with XOk n => n | _ => mkNotif [] 0 [] [] end.
Lemma n_snapshot_case :
  complete response_limit (w_doc o_notification) o_notification /\
  parse_root_octets no_more no_more false o_notification = XOk n_notif /\ plain_notif n_notif /\ plain_serial 0 /\
  needs_snapshot n_notif [] 0 /\ n_snapshot n_notif = str "https://r/snap.xml" /\
  (exists s' q, fetch_http response_limit no_more no_more false fs (octo_cb n_cwd n_base (str "rsync://h/")) n_texts (fun _ => 0)
     (w_web (w_doc o_snapshot) w_404) (str "https://r/n.xml") [] 0 n_start = (s', HDone (str "s") 9, q)) /\
  parse_node_octets no_more no_more false o_snapshot = XOk ([] ++ (str "rsync://" ++ str "h/m/a.cer", str "aGVsbG8=") :: [], []) /\
  b64_text (strip (str "aGVsbG8=")) (str "hello").
Proof.
  assert (E : n_notif = mkNotif (str "s") 9 (str "https://r/snap.xml") [(9, str "https://r/9.xml"); (8, str "https://r/8.xml")]) by (vm_compute; reflexivity).
  split; [split; [reflexivity|apply Z.leb_le; vm_compute; reflexivity]|]. split; [vm_compute; reflexivity|]. rewrite E.
  split.
  { split; [unfold int64; cbn [n_serial]; lia|]. split; [|cbn [n_deltas List.length]; lia].
    intros k u [I|[I|[]]]; injection I as <- _; unfold int64; lia. }
  split; [unfold plain_serial; lia|]. split; [left; reflexivity|]. split; [reflexivity|]. split.
  { destruct (fetch_http response_limit no_more no_more false fs (octo_cb n_cwd n_base (str "rsync://h/")) n_texts (fun _ => 0)
     (w_web (w_doc o_snapshot) w_404) (str "https://r/n.xml") [] 0 n_start) as [[s' r] q] eqn:F. exists s', q.
    assert (G' : forall t, snd (fst (fetch_http response_limit no_more no_more false fs (octo_cb n_cwd n_base (str "rsync://h/")) n_texts (fun _ => 0)
     (w_web (w_doc o_snapshot) w_404) (str "https://r/n.xml") [] 0 (g_start t))) = HDone (str "s") 9) by (intros t; vm_compute; reflexivity).
    specialize (G' e_tal). fold n_start in G'. rewrite F in G'. cbn [fst snd] in G'. now rewrite G'. }
  split; [vm_compute; reflexivity|]. apply Base64Proofs.decode_rrdp_base64_exact. vm_compute. reflexivity.
Qed.
Lemma n_delta_case :
  plain_serial 8 /\ ~ needs_snapshot n_notif (str "s") 8 /\ n_serial n_notif < 2 ^ 63 - 1 /\ 8 < 9 <= n_serial n_notif /\
  announces n_notif 9 (str "https://r/9.xml") /\
  (exists s' q, fetch_http response_limit no_more no_more false fs (octo_cb n_cwd n_base (str "rsync://h/")) n_texts (fun _ => 0)
     (w_web w_404 (w_doc w_delta)) (str "https://r/n.xml") (str "s") 8 n_start = (s', HDone (str "s") 9, q)) /\
  parse_node_octets no_more no_more false w_delta = XOk ([] ++ (str "rsync://" ++ str "h/m/a.cer", str "aGVsbG8=") :: [], []).
Proof.
  assert (E : n_notif = mkNotif (str "s") 9 (str "https://r/snap.xml") [(9, str "https://r/9.xml"); (8, str "https://r/8.xml")]) by (vm_compute; reflexivity).
  rewrite E. split; [unfold plain_serial; lia|]. split.
  { intros [H|[H|(k & Hk & H)]]; [discriminate H|apply H; reflexivity|]. apply H. cbn [n_serial] in Hk.
    assert (k = 8 \/ k = 9) as [->| ->] by lia; eexists; [right; left|left]; reflexivity. }
  split; [cbn [n_serial]; lia|]. split; [cbn [n_serial]; lia|]. split.
  { exists [], [(8, str "https://r/8.xml")]. split; [reflexivity|]. intros v [I|[]]. discriminate I. }
  split; [|vm_compute; reflexivity].
  destruct (fetch_http response_limit no_more no_more false fs (octo_cb n_cwd n_base (str "rsync://h/")) n_texts (fun _ => 0)
     (w_web w_404 (w_doc w_delta)) (str "https://r/n.xml") (str "s") 8 n_start) as [[s' r] q] eqn:F. exists s', q.
  assert (G' : forall t, snd (fst (fetch_http response_limit no_more no_more false fs (octo_cb n_cwd n_base (str "rsync://h/")) n_texts (fun _ => 0)
     (w_web w_404 (w_doc w_delta)) (str "https://r/n.xml") (str "s") 8 (g_start t))) = HDone (str "s") 9) by (intros t; vm_compute; reflexivity).
  specialize (G' e_tal). fold n_start in G'. rewrite F in G'. cbn [fst snd] in G'. now rewrite G'.
Qed.
