(** The report on valid objects describes them. *)
From Coq Require Import List ZArith Lia Bool.
From Verif.Model Require Import Base NetIP CertRes Roa Str Ber Tal Validator Explore NetText Output Octo Report.
From Verif.Spec Require Import Trust Discovery CtSpec OutputSpec EndSpec ReportSpec.
From Verif.Proofs Require Import StrProofs HeapProofs Invalidate BerProofs ValidatorInv ValidatorRun ValidatorMono ValidatorFacts
  ExploreFacts ExploreInv ExploreThm CtProofs ExportProofs ReportInv.
Import ListNotations.
Open Scope Z_scope.

Lemma nano_shows : forall t, shows_time t (nano_seconds t).
Proof.
  intros t R. unfold nano_seconds, int64.
  assert (E : (t * 1000000000 + 2 ^ 63) mod 2 ^ 64 = t * 1000000000 + 2 ^ 63) by (apply Z.mod_small; lia).
  rewrite E. replace (t * 1000000000 + 2 ^ 63 - 2 ^ 63) with (t * 1000000000) by lia. apply Z.quot_mul. lia.
Qed.
Lemma u32_in : forall n, in32 n -> u32 n = n.
Proof. intros n R. apply Z.mod_small. exact R. Qed.
Lemma asn_shows : forall a, shows_asn a (out_asn_of a).
Proof. intros [x y|x|]; constructor; intros; now apply u32_in. Qed.
Lemma asns_show : forall l, Forall2 shows_asn l (map out_asn_of l).
Proof. induction l; cbn [map]; constructor; auto using asn_shows. Qed.
Lemma ips_show : forall nil l x, out_ips_of nil l = Ret x -> Forall2 shows_ip l x.
Proof.
  intros nil l. induction l as [|i l IH]; intros x H; cbn [out_ips_of] in H.
  - injection H as <-. constructor.
  - destruct (out_ip_of nil i) as [y|] eqn:Y; [|discriminate]. cbn [gbind] in H.
    destruct (out_ips_of nil l) as [r|] eqn:R; [|discriminate]. cbn [gbind] in H. injection H as <-. constructor; [|now apply IH].
    destruct i as [[n|]|a b|f]; cbn [out_ip_of] in Y; try (injection Y as <-; constructor).
    destruct nil; [|discriminate]. cbn [gbind] in Y. injection Y as <-. constructor.
Qed.
Lemma ips_return : forall nil l, (forall i, In i l -> i <> INet None) -> exists x, out_ips_of nil l = Ret x.
Proof.
  intros nil l. induction l as [|i l IH]; intros H; cbn [out_ips_of]; [eauto|].
  destruct IH as (x & ->); [intros; apply H; now right|].
  specialize (H i (or_introl eq_refl)). destruct i as [[n|]|a b|f]; cbn [out_ip_of gbind]; eauto. congruence.
Qed.

(** ** Loops over maps *)
Lemma report_all_in : forall one h l L, report_all one h l = Ret L ->
  forall e, In e L <-> exists k a r d, In (k, a) l /\ nth_error h a = Some r /\ one r = Ret d /\ In e d.
Proof.
  intros one h l. unfold report_all. induction l as [|(k & a) l IH]; intros L H e; cbn [map gconcat snd] in H.
  - injection H as <-. split; [intros []|]. intros (? & ? & ? & ? & [] & _).
  - destruct (nth_error h a) as [r|] eqn:N; [|discriminate]. destruct (one r) as [d|] eqn:O; [|discriminate]. cbn [gbind] in H.
    destruct (gconcat _) as [R|] eqn:E; [|discriminate]. cbn [gbind] in H. injection H as <-.
    rewrite in_app_iff, (IH R eq_refl e). split.
    + intros [I|(k' & a' & r' & d' & I & X)]; [exists k, a, r, d; cbn; auto|exists k', a', r', d'; cbn; tauto].
    + intros (k' & a' & r' & d' & [I|I] & X).
      * injection I as <- <-. destruct X as (X1 & X2 & X3). rewrite N in X1. injection X1 as <-. rewrite O in X2. injection X2 as <-. auto.
      * right. exists k', a', r', d'. auto.
Qed.
Lemma report_all_ret : forall one h l, (forall k a, In (k, a) l -> exists r d, nth_error h a = Some r /\ one r = Ret d) ->
  exists L, report_all one h l = Ret L.
Proof.
  intros one h l. unfold report_all. induction l as [|(k & a) l IH]; intros H; cbn [map gconcat snd]; [eauto|].
  destruct (H k a (or_introl eq_refl)) as (r & d & -> & ->). cbn [gbind].
  destruct IH as (L & ->); [intros k' a' I; apply (H k' a'); now right|]. cbn [gbind]. eauto.
Qed.
Lemma report_all_once : forall K one h l L, NoDup (map fst l) ->
  (forall k a r d, In (k, a) l -> nth_error h a = Some r -> one r = Ret d ->
     d = [] \/ exists e, d = [e] /\ kind_of e = K /\ o_ski e = hexs k) ->
  report_all one h l = Ret L ->
  NoDup (map (fun e => (kind_of e, o_ski e)) L) /\ forall e, In e L -> kind_of e = K /\ exists k, In k (map fst l) /\ o_ski e = hexs k.
Proof.
  intros K one h l. unfold report_all. induction l as [|(k & a) l IH]; intros L ND Q H; cbn [map gconcat snd fst] in *.
  - injection H as <-. split; [constructor|intros e []].
  - inversion ND as [|? ? NI ND']; subst. destruct (nth_error h a) as [r|] eqn:N; [|discriminate].
    destruct (one r) as [d|] eqn:O; [|discriminate]. cbn [gbind] in H.
    destruct (gconcat _) as [R|] eqn:E; [|discriminate]. cbn [gbind] in H. injection H as <-.
    destruct (IH R ND' (fun k a r d I => Q k a r d (or_intror I)) eq_refl) as (I1 & I2).
    assert (I2' : forall e, In e R -> kind_of e = K /\ exists k', (k = k' \/ In k' (map fst l)) /\ o_ski e = hexs k').
    { intros e I. destruct (I2 e I) as (X & k' & Y & Z). eauto 6. }
    destruct (Q k a r d (or_introl eq_refl) N O) as [->|(e & -> & KE & SE)]; cbn [app map].
    + split; assumption.
    + split.
      * constructor; [|assumption]. intros I. apply in_map_iff in I as (e' & X & I).
        destruct (I2 e' I) as (_ & k' & Y & Z). assert (o_ski e = o_ski e') by congruence.
        rewrite SE, Z in H. apply hexs_inj in H. congruence.
      * intros e' [<-|I]; [split; [assumption|exists k; cbn [In]; auto]|auto].
Qed.

Section Explored.
Variable sig_ok : cert -> cert -> bool.
Variable crl_sig_ok : cert -> crl -> bool.
Variable dec_tal : bytes -> option tal.
Variable dec_cert : bytes -> option cert.
Variable dec_roa : bytes -> option roa.
Variable dec_mft : bytes -> option mft.
Variable dec_crl : bytes -> option crl.
Variable hex_sha1 : bytes -> bytes.
Variable disk : bytes -> option bytes.
Variable synced : bytes -> bool.
Variable sha256 : bytes -> bytes.
Variable clock : nat -> Z * Z.
Variable strict_manifests : bool.
Variable strict_hash : bool.
Variable add_invalid : bool.
Variable nil_text : go bytes.
Notation explore_iter := (explore_iter sig_ok crl_sig_ok dec_tal dec_cert dec_roa dec_mft dec_crl hex_sha1 disk synced sha256 clock strict_manifests strict_hash add_invalid).
Notation report_tal := (report_tal disk synced sha256 nil_text).
Notation report := (report disk synced sha256 nil_text).
Notation report_cert := (report_cert disk synced sha256 nil_text).
Notation report_roa := (report_roa disk synced sha256).
Notation report_mft := (report_mft disk synced sha256).
Notation report_of := (report_of disk sha256 dec_cert dec_roa dec_mft).
Notation cert_entry := (cert_entry disk sha256 dec_cert).
Notation roa_entry := (roa_entry disk sha256 dec_roa).
Notation mft_entry := (mft_entry disk sha256 dec_mft).

(** The state of an exploration, and orders of its three maps. *)
Definition explored_report (q : exploration) (p : reported) : Prop :=
  explores explore_iter (init_mgr (x_now q) (x_init q)) (x_files q) (x_mgr q) /\ p_v p = m_v (x_mgr q) /\
  listing (v_valid (p_v p)) (p_certs p) /\ listing (v_validroa (p_v p)) (p_roas p) /\ listing (v_validmft (p_v p)) (p_mfts p).

Lemma path_known : forall f raw d, Discovery.holds disk f raw d ->
  path_and_hash disk synced sha256 (Some f) = Ret (compute_path f, hexs (sha256 raw)).
Proof. intros f raw d (D & _). unfold path_and_hash. now rewrite D. Qed.

Lemma about_out : forall ta c f raw k, about sha256 ta c f raw (out_of ta c (compute_path f, hexs (sha256 raw)) k).
Proof. intros. unfold about, out_of. cbn. repeat split; auto using nano_shows. Qed.

Section One.
Variable q : exploration.
Variable p : reported.
Variable ta : bytes.
Hypothesis E : explored_report q p.
Let v := p_v p.
Let P := x_files q.

Lemma e_inv : exists T, Inv sig_ok T v.
Proof using E.
  destruct E as (X & V & _). destruct (explored_run _ _ _ _ _ _ _ _ _ _ _ _ _ _ _ _ _ _ _ X) as (ops & R & _).
  apply inv_run in R. destruct R as (I & _). unfold v. rewrite V. eauto.
Qed.
Lemma e_res : forall a r, nth_error (v_heap v) a = Some r ->
  match r_obj r with
  | OCrl _ | OTal _ => True
  | _ => exists f raw d, In f P /\ Discovery.holds disk f raw d /\ r_file r = Some f /\ res_of dec_cert dec_roa dec_mft f d r
  end.
Proof using E. intros a r N. destruct E as (X & V & _). unfold v in N. rewrite V in N. exact (explored_res _ _ _ _ _ _ _ _ _ _ _ _ _ _ _ _ _ _ _ _ _ X N). Qed.

Lemma e_cert : forall k a, In (k, a) (p_certs p) -> exists r c f raw d, nth_error (v_heap v) a = Some r /\ r_obj r = OCert c /\
  c_ski c = k /\ file_of v c (Some f) /\ In f P /\ Discovery.holds disk f raw d /\ r_file r = Some f /\
  r_type r = cert_type (f_type f) /\ brings dec_cert dec_roa dec_mft f d c.
Proof using E.
  intros k a I. apply (proj2 (proj1 (proj2 (proj2 E)))) in I. destruct e_inv as (T & IV). fold v in I.
  destruct (inv_obj _ _ _ IV _ _ (inv_valid _ _ _ IV _ _ I)) as (c & O & K).
  unfold hobj in O. destruct (nth_error (v_heap v) a) as [r|] eqn:N; [|discriminate]. injection O as O.
  pose proof (e_res a r N) as R. rewrite O in R. destruct R as (f & raw & d & F1 & F2 & F3 & F4).
  unfold res_of in F4. rewrite O in F4. destruct F4 as (F4 & F5).
  exists r, c, f, raw, d. repeat (split; auto). exists a, r. rewrite K. auto.
Qed.
Lemma e_roa : forall k a, In (k, a) (p_roas p) -> exists r x f raw d, nth_error (v_heap v) a = Some r /\ r_obj r = ORoa x /\
  c_ski (roa_cert x) = k /\ valid_roa v x /\ valid_cert v (roa_cert x) /\ In f P /\ Discovery.holds disk f raw d /\ r_file r = Some f /\
  f_type f = TRoa /\ dec_roa d = Some x.
Proof using E.
  intros k a I. apply (proj2 (proj1 (proj2 (proj2 (proj2 E))))) in I. destruct e_inv as (T & IV). fold v in I.
  destruct (inv_vroa _ _ _ IV _ _ I) as (x & b & O & K & V & OC & _). unfold hobj in O, OC.
  destruct (nth_error (v_heap v) a) as [r|] eqn:N; [|discriminate]. injection O as O.
  destruct (nth_error (v_heap v) b) as [rb|] eqn:NB; [|discriminate]. injection OC as OC.
  pose proof (e_res a r N) as R. rewrite O in R. destruct R as (f & raw & d & F1 & F2 & F3 & F4).
  unfold res_of in F4. rewrite O in F4. destruct F4 as (F4 & F5).
  exists r, x, f, raw, d. repeat (split; auto).
  - exists a. rewrite K. split; [assumption|]. exists r. auto.
  - exists b. rewrite K. split; [assumption|]. exists rb. auto.
Qed.
Lemma e_mft : forall k a, In (k, a) (p_mfts p) -> exists r m f raw d, nth_error (v_heap v) a = Some r /\ r_obj r = OMft m /\
  c_ski (mft_cert m) = k /\ valid_mft v m /\ In f P /\ Discovery.holds disk f raw d /\ r_file r = Some f /\
  f_type f = TMft /\ dec_mft d = Some m.
Proof using E.
  intros k a I. apply (proj2 (proj2 (proj2 (proj2 (proj2 E))))) in I. destruct e_inv as (T & IV). fold v in I.
  destruct (inv_vmft _ _ _ IV _ _ I) as (x & b & O & K & _). unfold hobj in O.
  destruct (nth_error (v_heap v) a) as [r|] eqn:N; [|discriminate]. injection O as O.
  pose proof (e_res a r N) as R. rewrite O in R. destruct R as (f & raw & d & F1 & F2 & F3 & F4).
  unfold res_of in F4. rewrite O in F4. destruct F4 as (F4 & F5).
  exists r, x, f, raw, d. repeat (split; auto). exists a, r. rewrite K. auto.
Qed.

(** One entry *)
Lemma one_cert : forall r c f raw d out, r_obj r = OCert c -> In f P -> Discovery.holds disk f raw d -> r_file r = Some f ->
  r_type r = cert_type (f_type f) -> brings dec_cert dec_roa dec_mft f d c -> report_cert ta r = Ret out ->
  (out = [] /\ f_type f <> TCer) \/
  (f_type f = TCer /\ exists e, out = [e] /\ kind_of e = Certificate /\ o_ski e = hexs (c_ski c) /\ cert_entry ta P c e).
Proof using Type.
  intros r c f raw d out O IP H F T B R. unfold Report.report_cert in R. rewrite O, F, T, (path_known _ _ _ H) in R. cbn [gbind] in R.
  destruct (is_cer (cert_type (f_type f))) eqn:IC.
  - assert (TC : f_type f = TCer) by (destruct (f_type f); (reflexivity || discriminate)).
    destruct (out_ips_of nil_text (c_ips c)) as [ips|] eqn:OI; [|discriminate]. cbn [gbind] in R. injection R as <-.
    right. split; [assumption|]. eexists. split; [reflexivity|]. split; [reflexivity|]. split; [reflexivity|].
    unfold brings in B. rewrite TC in B. exists f, raw, d. split; [assumption|]. split; [assumption|]. split; [assumption|]. split; [assumption|].
    split; [apply about_out|]. exists (map out_asn_of (c_asns c)), ips. split; [reflexivity|]. split; [apply asns_show|exact (ips_show _ _ _ OI)].
  - injection R as <-. left. split; [reflexivity|]. intros X. rewrite X in IC. discriminate.
Qed.
Lemma one_roa : forall r x f raw d out, r_obj r = ORoa x -> In f P -> Discovery.holds disk f raw d -> r_file r = Some f ->
  f_type f = TRoa -> dec_roa d = Some x -> report_roa ta r = Ret out ->
  exists e, out = [e] /\ kind_of e = Authorisation /\ o_ski e = hexs (c_ski (roa_cert x)) /\ roa_entry ta P x e.
Proof using Type.
  intros r x f raw d out O IP H F T B R. unfold Report.report_roa in R. rewrite O, F, (path_known _ _ _ H) in R. cbn [gbind] in R.
  destruct (valids x) as [l|] eqn:V; [|discriminate]. cbn [gbind] in R. injection R as <-.
  eexists. split; [reflexivity|]. split; [reflexivity|]. split; [reflexivity|].
  exists f, raw, d. split; [assumption|]. split; [assumption|]. split; [assumption|]. split; [assumption|].
  split; [apply about_out|]. exists (u32 (roa_asn x)), l. split; [reflexivity|]. split; [apply u32_in|].
  unfold export_roa. rewrite V. reflexivity.
Qed.
Lemma one_mft : forall r m f raw d out, r_obj r = OMft m -> In f P -> Discovery.holds disk f raw d -> r_file r = Some f ->
  f_type f = TMft -> dec_mft d = Some m -> report_mft ta r = Ret out ->
  exists e, out = [e] /\ kind_of e = Manifest /\ o_ski e = hexs (c_ski (mft_cert m)) /\ mft_entry ta P m e.
Proof using Type.
  intros r m f raw d out O IP H F T B R. unfold Report.report_mft in R. rewrite O, F, (path_known _ _ _ H) in R. cbn [gbind] in R.
  injection R as <-. eexists. split; [reflexivity|]. split; [reflexivity|]. split; [reflexivity|].
  exists f, raw, d. split; [assumption|]. split; [assumption|]. split; [assumption|]. split; [assumption|].
  split; [apply about_out|]. eexists _, _. split; [reflexivity|]. split; apply nano_shows.
Qed.

Lemma report_tal_of : forall L, report_tal ta p = Ret L -> report_of ta P v L.
Proof using E.
  intros L H. unfold Report.report_tal in H. fold v in H.
  destruct (report_all (report_cert ta) _ _) as [A|] eqn:EA; [|discriminate]. cbn [gbind] in H.
  destruct (report_all (report_roa ta) _ _) as [B|] eqn:EB; [|discriminate]. cbn [gbind] in H.
  destruct (report_all (report_mft ta) _ _) as [C|] eqn:EC; [|discriminate]. cbn [gbind] in H. injection H as <-.
  destruct (fun Q => report_all_once Certificate (report_cert ta) (v_heap v) (p_certs p) _ (proj1 (proj1 (proj2 (proj2 E)))) Q EA) as (A1 & A2).
  { intros k a r d I N O. destruct (e_cert k a I) as (r' & c & f & raw & d' & N' & X1 & X2 & X3 & X4 & X5 & X6 & X7 & X8).
    assert (r' = r) by congruence. subst r'. destruct (one_cert _ _ _ _ _ _ X1 X4 X5 X6 X7 X8 O) as [(-> & _)|(_ & e & -> & KE & SE & _)]; [auto|].
    right. exists e. subst k. auto. }
  destruct (fun Q => report_all_once Authorisation (report_roa ta) (v_heap v) (p_roas p) _ (proj1 (proj1 (proj2 (proj2 (proj2 E))))) Q EB) as (B1 & B2).
  { intros k a r d I N O. destruct (e_roa k a I) as (r' & c & f & raw & d' & N' & X1 & X2 & _ & _ & X4 & X5 & X6 & X7 & X8).
    assert (r' = r) by congruence. subst r'. destruct (one_roa _ _ _ _ _ _ X1 X4 X5 X6 X7 X8 O) as (e & -> & KE & SE & _).
    right. exists e. subst k. auto. }
  destruct (fun Q => report_all_once Manifest (report_mft ta) (v_heap v) (p_mfts p) _ (proj1 (proj2 (proj2 (proj2 (proj2 E))))) Q EC) as (C1 & C2).
  { intros k a r d I N O. destruct (e_mft k a I) as (r' & c & f & raw & d' & N' & X1 & X2 & _ & X4 & X5 & X6 & X7 & X8).
    assert (r' = r) by congruence. subst r'. destruct (one_mft _ _ _ _ _ _ X1 X4 X5 X6 X7 X8 O) as (e & -> & KE & SE & _).
    right. exists e. subst k. auto. }
  assert (DJ : forall (l1 l2 : list out_res) K, (forall e, In e l1 -> kind_of e = K) -> (forall e, In e l2 -> kind_of e <> K) ->
    NoDup (map (fun e => (kind_of e, o_ski e)) l1) -> NoDup (map (fun e => (kind_of e, o_ski e)) l2) ->
    NoDup (map (fun e => (kind_of e, o_ski e)) (l1 ++ l2))).
  { clear. intros l1 l2 K K1 K2 N1 N2. induction l1 as [|x l1 IH]; cbn [app map] in *; [assumption|].
    inversion N1 as [|? ? NI N1']; subst. constructor; [|apply IH; [intros e I; apply K1; now right|assumption]].
    rewrite map_app, in_app_iff. intros [I|I]; [contradiction|]. apply in_map_iff in I as (y & X & I).
    specialize (K2 y I). specialize (K1 x (or_introl eq_refl)). congruence. }
  split; [|split; [|split; [|split]]].
  - apply (DJ A (B ++ C) Certificate); [intros e I; apply (A2 e I)| |assumption|].
    + intros e I. apply in_app_iff in I as [I|I]; [rewrite (proj1 (B2 e I))|rewrite (proj1 (C2 e I))]; discriminate.
    + apply (DJ B C Authorisation); [intros e I; apply (B2 e I)| |assumption|assumption].
      intros e I. rewrite (proj1 (C2 e I)). discriminate.
  - intros e I. rewrite !in_app_iff in I. destruct I as [I|[I|I]].
    + left. apply (report_all_in _ _ _ _ EA) in I as (k & a & r & d & I & N & O & ID).
      destruct (e_cert k a I) as (r' & c & f & raw & d' & N' & X1 & X2 & X3 & X4 & X5 & X6 & X7 & X8).
      assert (r' = r) by congruence. subst r'. exists c.
      destruct (one_cert _ _ _ _ _ _ X1 X4 X5 X6 X7 X8 O) as [(-> & _)|(_ & e' & -> & _ & _ & CE)]; [contradiction|].
      destruct ID as [<-|[]]. split; [|assumption]. destruct X3 as (a' & r' & V' & N'' & O' & _). exists a'. split; [assumption|]. exists r'. auto.
    + right. left. apply (report_all_in _ _ _ _ EB) in I as (k & a & r & d & I & N & O & ID).
      destruct (e_roa k a I) as (r' & c & f & raw & d' & N' & X1 & X2 & X3 & _ & X4 & X5 & X6 & X7 & X8).
      assert (r' = r) by congruence. subst r'. exists c.
      destruct (one_roa _ _ _ _ _ _ X1 X4 X5 X6 X7 X8 O) as (e' & -> & _ & _ & CE). destruct ID as [<-|[]]. auto.
    + right. right. apply (report_all_in _ _ _ _ EC) in I as (k & a & r & d & I & N & O & ID).
      destruct (e_mft k a I) as (r' & c & f & raw & d' & N' & X1 & X2 & X3 & X4 & X5 & X6 & X7 & X8).
      assert (r' = r) by congruence. subst r'. exists c.
      destruct (one_mft _ _ _ _ _ _ X1 X4 X5 X6 X7 X8 O) as (e' & -> & _ & _ & CE). destruct ID as [<-|[]]. auto.
  - intros c f (a & r & V & N & O & F) T. assert (I : In (c_ski c, a) (p_certs p)) by (apply (proj2 (proj1 (proj2 (proj2 E)))); exact V).
    destruct (e_cert _ _ I) as (r' & c' & f' & raw & d & N' & X1 & X2 & X3 & X4 & X5 & X6 & X7 & X8).
    assert (r' = r) by congruence. subst r'. assert (c' = c) by congruence. subst c'. assert (f' = f) by congruence. subst f'.
    assert (exists out, report_cert ta r = Ret out) as (out & R).
    { clear - EA I N. revert EA. unfold report_all. revert A I. induction (p_certs p) as [|(k & b) l IH]; intros A I H; [contradiction|].
      cbn [map gconcat snd] in H. destruct I as [I|I].
      - assert (b = a) by congruence. subst b. rewrite N in H. destruct (report_cert ta r); [eauto|discriminate].
      - destruct (match nth_error (v_heap v) b with Some r => report_cert ta r | None => Panic end); [|discriminate]. cbn [gbind] in H.
        destruct (gconcat _) as [A'|] eqn:EA'; [|discriminate]. exact (IH A' I eq_refl). }
    destruct (one_cert _ _ _ _ _ _ X1 X4 X5 X6 X7 X8 R) as [(_ & NT)|(_ & e & -> & _ & _ & CE)]; [contradiction|].
    exists e. split; [|assumption]. apply in_app_iff. left. apply (report_all_in _ _ _ _ EA). exists (c_ski c), a, r, [e]. cbn. auto.
  - intros x (a & V & r & N & O). assert (I : In (c_ski (roa_cert x), a) (p_roas p)) by (apply (proj2 (proj1 (proj2 (proj2 (proj2 E))))); exact V).
    destruct (e_roa _ _ I) as (r' & c' & f' & raw & d & N' & X1 & X2 & X3 & _ & X4 & X5 & X6 & X7 & X8).
    assert (r' = r) by congruence. subst r'. assert (c' = x) by congruence. subst c'.
    assert (exists out, report_roa ta r = Ret out) as (out & R).
    { clear - EB I N. revert EB. unfold report_all. revert B I. induction (p_roas p) as [|(k & b) l IH]; intros A I H; [contradiction|].
      cbn [map gconcat snd] in H. destruct I as [I|I].
      - assert (b = a) by congruence. subst b. rewrite N in H. destruct (report_roa ta r); [eauto|discriminate].
      - destruct (match nth_error (v_heap v) b with Some r => report_roa ta r | None => Panic end); [|discriminate]. cbn [gbind] in H.
        destruct (gconcat _) as [A'|] eqn:EA'; [|discriminate]. exact (IH A' I eq_refl). }
    destruct (one_roa _ _ _ _ _ _ X1 X4 X5 X6 X7 X8 R) as (e & -> & _ & _ & CE).
    exists e. split; [|assumption]. rewrite !in_app_iff. right. left. apply (report_all_in _ _ _ _ EB). exists (c_ski (roa_cert x)), a, r, [e]. cbn. auto.
  - intros x (a & r & V & N & O). assert (I : In (c_ski (mft_cert x), a) (p_mfts p)) by (apply (proj2 (proj2 (proj2 (proj2 (proj2 E))))); exact V).
    destruct (e_mft _ _ I) as (r' & c' & f' & raw & d & N' & X1 & X2 & X3 & X4 & X5 & X6 & X7 & X8).
    assert (r' = r) by congruence. subst r'. assert (c' = x) by congruence. subst c'.
    assert (exists out, report_mft ta r = Ret out) as (out & R).
    { unfold Report.report_mft. rewrite X1, X6, (path_known _ _ _ X5). cbn [gbind]. eauto. }
    destruct (one_mft _ _ _ _ _ _ X1 X4 X5 X6 X7 X8 R) as (e & -> & _ & _ & CE).
    exists e. split; [|assumption]. rewrite !in_app_iff. right. right. apply (report_all_in _ _ _ _ EC). exists (c_ski (mft_cert x)), a, r, [e]. cbn. auto.
Qed.

Lemma report_tal_returns : (forall c, valid_cert v c -> Forall decoded_elem (c_ips c)) -> exists L, report_tal ta p = Ret L.
Proof using E.
  intros D.
  assert (D' : forall c, valid_cert v c -> forall i, In i (c_ips c) -> i <> INet None).
  { intros c V i I X. subst i. specialize (D c V). rewrite Forall_forall in D. specialize (D _ I). now inversion D. }
  unfold Report.report_tal. fold v.
  destruct (report_all_ret (report_cert ta) (v_heap v) (p_certs p)) as (A & ->).
  { intros k a I. destruct (e_cert k a I) as (r & c & f & raw & d & N & X1 & X2 & X3 & X4 & X5 & X6 & X7 & X8). exists r.
    unfold Report.report_cert. rewrite X1, X6, (path_known _ _ _ X5). cbn [gbind].
    destruct (is_cer (r_type r)); [|eauto]. destruct (ips_return nil_text (c_ips c)) as (ips & ->); [|cbn [gbind]; eauto].
    apply D'. destruct X3 as (a' & r' & V' & N'' & O' & _). exists a'. split; [assumption|]. exists r'. auto. }
  cbn [gbind]. destruct (report_all_ret (report_roa ta) (v_heap v) (p_roas p)) as (B & ->).
  { intros k a I. destruct (e_roa k a I) as (r & x & f & raw & d & N & X1 & X2 & X3 & XC & X4 & X5 & X6 & X7 & X8). exists r.
    unfold Report.report_roa. rewrite X1, X6, (path_known _ _ _ X5). cbn [gbind]. unfold valids.
    destruct (roa_list_no_panic (roa_entries x) (c_ips (roa_cert x)) (D _ XC)) as (v1 & v2 & v3 & ->). cbn [gbind]. eauto. }
  cbn [gbind]. destruct (report_all_ret (report_mft ta) (v_heap v) (p_mfts p)) as (C & ->).
  { intros k a I. destruct (e_mft k a I) as (r & x & f & raw & d & N & X1 & X2 & X3 & X4 & X5 & X6 & X7 & X8). exists r.
    unfold Report.report_mft. rewrite X1, X6, (path_known _ _ _ X5). cbn [gbind]. eauto. }
  cbn [gbind]. eauto.
Qed.
End One.

Lemma report_parts : forall names paths qs ps i L, Forall2 explored_report qs ps -> report names paths i ps = Ret L ->
  exists parts, L = concat parts /\ length parts = length qs /\
    forall j q l, nth_error qs j = Some q -> nth_error parts j = Some l ->
      report_of (tal_name names paths (i + j)) (x_files q) (m_v (x_mgr q)) l.
Proof.
  intros names paths qs. induction qs as [|q qs IH]; intros ps i L F H; inversion F as [|? p ? ps' EX F']; subst; cbn [Report.report] in H.
  - injection H as <-. exists []. split; [reflexivity|]. split; [reflexivity|]. intros [|j] q l X; discriminate.
  - destruct (report_tal (tal_name names paths i) p) as [A|] eqn:EA; [|discriminate]. cbn [gbind] in H.
    destruct (report names paths (S i) ps') as [B|] eqn:EB; [|discriminate]. cbn [gbind] in H. injection H as <-.
    destruct (IH _ _ _ F' EB) as (parts & -> & LN & Q). exists (A :: parts). split; [reflexivity|]. split; [cbn; congruence|].
    intros [|j] q' l X Y; cbn [nth_error] in X, Y.
    + injection X as <-. injection Y as <-. rewrite Nat.add_0_r. rewrite <- (proj1 (proj2 EX)). exact (report_tal_of q p _ EX _ EA).
    + replace (i + S j)%nat with (S i + j)%nat by lia. eauto.
Qed.

Lemma report_returns : forall names paths qs ps i, Forall2 explored_report qs ps ->
  (forall q, In q qs -> forall c, valid_cert (m_v (x_mgr q)) c -> decoded_cert c) ->
  exists L, report names paths i ps = Ret L.
Proof.
  intros names paths qs. induction qs as [|q qs IH]; intros ps i F D; inversion F as [|? p ? ps' EX F']; subst; cbn [Report.report]; [eauto|].
  destruct (report_tal_returns q p (tal_name names paths i) EX) as (A & ->).
  { rewrite (proj1 (proj2 EX)). intros c V. apply decoded_cert_elems, (D q); [now left|assumption]. }
  cbn [gbind]. destruct (IH ps' (S i) F') as (B & ->); [intros; apply (D q0); [now right|assumption]|]. cbn [gbind]. eauto.
Qed.
End Explored.
