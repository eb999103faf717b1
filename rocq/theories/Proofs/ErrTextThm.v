(** The texts and tags of the errors sent. *)
From Coq Require Import Lia String Permutation.
From Verif.Model Require Import Base NetIP CertRes Roa Str TalText NetText Ber Tal Validator Explore ErrReport ErrText.
From Verif.Spec Require Import Resources Trust ErrReportSpec ErrTextSpec.
From Verif.Proofs Require Import StrProofs CertProofs NetTextProofs ListProofs ValidatorRes ErrTextProofs.
Open Scope Z_scope.

(** *** Texts *)

Lemma item_texts : forall nil_text l, Forall shown_ip l -> exists ts, ip_item_texts nil_text l = Ret ts /\ Forall2 ip_shown l ts.
Proof.
  intros nt l H. induction H as [|i l (N & M) H (ts & E & F)].
  - exists []. split; [reflexivity|constructor].
  - destruct i as [[n|]|a b|f].
    + exists (ipnet_text n :: ts). cbn [ip_item_texts ip_item_text gbind]. rewrite E. cbn [gbind]. split; [reflexivity|]. repeat constructor; auto.
    + destruct (N eq_refl).
    + eexists. cbn [ip_item_texts ip_item_text gbind]. rewrite E. cbn [gbind]. split; [reflexivity|]. repeat constructor; auto.
    + destruct (M f eq_refl).
Qed.

Definition msg_of (k : ekind) : bytes :=
  match k with
  | EExpiration => str "expiration issue for certificate ski:"
  | EParent => str "parent issue for certificate ski:"
  | ERevocation => str "revocation by issuer for certificate ski:"
  | EResource => str "resource issue for certificate ski:"
  | EConflict => str "certificate conflict for certificate ski:"
  | EManifest => str "revocation due to manifest issue for certificate ski:"
  | ECrl => str "revocation due to crl issue for certificate ski:"
  | _ => []
  end.
Definition named_kind (k : ekind) : Prop := k <> EUnknown /\ k <> EFile /\ k <> EHash.
Definition ends_id (r : bytes) : Prop := match r with [] => True | x :: _ => x = 32 \/ x = 58 end.

Lemma form : forall nt e, made e -> exists c r, ce_cert e = Some c /\ named_kind (ce_kind e) /\ ends_id r /\
  cerr_text nt e = Ret (msg_of (ce_kind e) ++ hexs (c_ski c) ++ str " aki:" ++ hexs (c_aki c) ++ r).
Proof.
  intros nt e M.
  assert (G : forall m k i c, msg_of k = m ++ str " for certificate ski:" -> named_kind k -> forall r, ends_id r -> exists c0 r0, Some c = Some c0 /\ named_kind k /\ ends_id r0 /\
    Ret (m ++ str " " ++ (str "for certificate ski:" ++ hexs (c_ski c) ++ str " aki:" ++ hexs (c_aki c)) ++ r) =
    Ret (msg_of k ++ hexs (c_ski c0) ++ str " aki:" ++ hexs (c_aki c0) ++ r0) /\ (i : option bytes) = i).
  { intros m k i c Hm N r R. exists c, r. repeat split; auto; try apply N. rewrite Hm. f_equal. rewrite <- !app_assoc. f_equal. }
  assert (P : forall w l, ends_id (res_part w l)) by (intros w [|x l]; cbn; auto).
  assert (N : forall k, match k with EUnknown | EFile | EHash => False | _ => True end -> named_kind k).
  { intros k K. repeat split; intros ->; exact K. }
  destruct M as [c t|c t|c|c l m F|c o|c o f|c o f]; unfold cerr_text; cbn [ce_cert ce_inner ce_ips ce_asns ce_msg ce_kind err_validity err_parent err_revocation err_resource err_conflict err_manifest err_crl ip_item_texts gbind map].
  4:{ destruct (item_texts nt l F) as (ts & -> & _). cbn [gbind].
      destruct (G (str "resource issue") EResource None c eq_refl (N EResource I) (res_part (str "IP") ts ++ res_part (str "ASN") (map as_text m))) as (c0 & r0 & A & B & C & D & _).
      { destruct ts; [apply P|cbn; auto]. } exists c0, r0. auto. }
  all: let fin m k r := (let A := fresh in let B := fresh in let C := fresh in let D := fresh in let x := fresh in let y := fresh in
         destruct (G m k None c eq_refl (N k I) r ltac:(try destruct o; cbn; auto)) as (x & y & A & B & C & D & _); exists x, y; auto) in
       match goal with
       | |- context [msg_of ?k] =>
         match goal with
         | |- context [?m ++ str " " ++ _ ++ ?r] => fin m k r
         end
       end.
Qed.

Lemma made_text : forall nt e, made e -> exists t, cerr_text nt e = Ret t.
Proof. intros nt e M. destruct (form nt e M) as (c & r & _ & _ & _ & E). eauto. Qed.
Lemma with_file_text : forall nt f sk e, cerr_text nt (with_file f sk e) = cerr_text nt e.
Proof. reflexivity. Qed.
Lemma info_text : forall nt f sk e, err_text nt (add_info f sk e) = err_text nt e.
Proof. intros nt f sk [t|c|c|k i f0 s0]; reflexivity. Qed.
Lemma fresh_text : forall nt e, fresh e -> exists t, err_text nt e = Ret t.
Proof. intros nt e F. destruct F as [t|e M|t|e M _|t]; cbn [err_text wrap]; try (eexists; reflexivity); now apply made_text. Qed.
Lemma sent_text : forall nt e, sent e -> exists t, err_text nt e = Ret t.
Proof. intros nt e [(f & sk & b & F & ->)|(f & d & h & w & _ & _ & ->)]; rewrite info_text; [now apply fresh_text|eexists; reflexivity]. Qed.

(** An error that names a certificate is one of the seven. *)
Lemma sent_named : forall nt e c, sent e -> cert_of e = Some c ->
  exists m, made m /\ ce_cert m = Some c /\ type_of e = ce_kind m /\ err_text nt e = cerr_text nt m.
Proof.
  intros nt e c [(f & sk & b & F & ->)|(f & d & h & w & _ & _ & ->)] C; [|discriminate].
  rewrite info_text. destruct F as [t|e M|t|e M _|t]; cbn in C; try discriminate; exists e; auto.
Qed.

Lemma msg_inj : forall k k' x y, named_kind k -> named_kind k' -> msg_of k ++ x = msg_of k' ++ y -> k = k' /\ x = y.
Proof.
  assert (L : forall k, named_kind k -> (20 <= List.length (msg_of k))%nat).
  { intros k (A & B & C). destruct k; try contradiction; cbn; lia. }
  intros k k' x y K K' E.
  assert (H : firstn 20 (msg_of k) = firstn 20 (msg_of k')).
  { assert (X := f_equal (firstn 20) E). rewrite !firstn_app in X.
    replace (20 - List.length (msg_of k))%nat with 0%nat in X by (specialize (L k K); lia).
    replace (20 - List.length (msg_of k'))%nat with 0%nat in X by (specialize (L k' K'); lia).
    cbn [firstn] in X. now rewrite !app_nil_r in X. }
  assert (Q : k = k').
  { destruct K as (A & B & C), K' as (A' & B' & C'). destruct k; try contradiction; destruct k'; try contradiction; try reflexivity; vm_compute in H; discriminate. }
  subst k'. split; [reflexivity|]. eapply app_inv_head; exact E.
Qed.

Definition hexdigit (x : Z) : Prop := x <> 32 /\ x <> 58.
Lemma hexs_digits : forall l, bytes_ok l = true -> Forall hexdigit (hexs l).
Proof.
  induction l as [|b l IH]; intros H; [constructor|]. unfold bytes_ok in H. cbn [forallb] in H. apply andb_true_iff in H as [B H].
  unfold byte_ok in B. apply andb_true_iff in B. assert (0 <= b < 256) by lia.
  assert (D : forall d, 0 <= d < 16 -> hexdigit (hexd d)).
  { intros d D. unfold hexdigit, hexd. destruct (d <? 10) eqn:E; lia. }
  cbn [hexs]. apply Forall_cons; [|apply Forall_cons].
  - apply D. split; [apply Z.div_pos|apply Z.div_lt_upper_bound]; lia.
  - apply D. apply Z.mod_pos_bound; lia.
  - apply IH. exact H.
Qed.
Lemma split_digits : forall a b x y, Forall hexdigit a -> Forall hexdigit b -> ends_id x -> ends_id y -> a ++ x = b ++ y -> a = b /\ x = y.
Proof.
  induction a as [|p a IH]; intros [|q b] x y A B X Y E; cbn [app] in E; auto.
  - subst x. inversion B as [|? ? (U & V)]; subst. cbn in X. destruct X; contradiction.
  - subst y. inversion A as [|? ? (U & V)]; subst. cbn in Y. destruct Y; contradiction.
  - injection E as -> E. inversion A; inversion B; subst. destruct (IH b x y) as (-> & ->); auto.
Qed.

Lemma text_names : forall nt e e' c c' t, sent e -> sent e' -> cert_of e = Some c -> cert_of e' = Some c' ->
  octet_ids c -> octet_ids c' -> err_text nt e = Ret t -> err_text nt e' = Ret t ->
  type_of e = type_of e' /\ c_ski c = c_ski c' /\ c_aki c = c_aki c'.
Proof.
  intros nt e e' c c' t S S' C C' (O1 & O2) (O1' & O2') T T'.
  destruct (sent_named nt e c S C) as (m & M & Mc & -> & X). destruct (sent_named nt e' c' S' C') as (m' & M' & Mc' & -> & X').
  rewrite X in T. rewrite X' in T'.
  destruct (form nt m M) as (d & r & D & K & R & F). destruct (form nt m' M') as (d' & r' & D' & K' & R' & F').
  rewrite Mc in D. rewrite Mc' in D'. injection D as <-. injection D' as <-.
  rewrite F in T. rewrite F' in T'. rewrite <- T' in T. injection T as T. apply msg_inj in T; auto. destruct T as (-> & T).
  split; [reflexivity|].
  apply split_digits in T; [|now apply hexs_digits|now apply hexs_digits|now left|now left]. destruct T as (H1 & T).
  apply hexs_inj in H1; auto. injection T as T.
  apply split_digits in T; [|now apply hexs_digits|now apply hexs_digits|auto|auto]. destruct T as (H2 & _).
  apply hexs_inj in H2; auto.
Qed.

(** *** Tags *)

Lemma tag_set : forall s k' v k, tag (set_tag k' v s) k = if beq k k' then Some v else tag s k.
Proof.
  unfold set_tag. induction s as [|(k0 & v0) s IH]; intros k' v k; cbn [tag app]; [destruct (beq k k'); reflexivity|].
  rewrite IH. destruct (beq k k'); [reflexivity|]. reflexivity.
Qed.

Definition repo_tags (pre : bytes) (f : pkifile) (s : scope) : scope :=
  match fd_repo (f_desc f) with
  | _ :: _ => set_tag (pre ++ str ".Repository") (fd_repo (f_desc f)) s
  | [] =>
      match f_parent f with
      | Some p =>
          match fd_repo (f_desc p) with
          | _ :: _ => set_tag (pre ++ str ".Repository") (fd_repo (f_desc p)) s
          | [] => s
          end
      | None => s
      end
  end.
Lemma file_tags_eq : forall pre f s, file_tags pre (Some f) s =
  set_tag (pre ++ str ".Type") (type_name (f_type f)) (set_tag (pre ++ str ".Path") (f_path f) (repo_tags pre f s)).
Proof. reflexivity. Qed.
Lemma tag_repo_other : forall pre f s k, beq k (pre ++ str ".Repository") = false -> tag (repo_tags pre f s) k = tag s k.
Proof.
  intros pre f s k H. unfold repo_tags. destruct (fd_repo (f_desc f)); [|now rewrite tag_set, H].
  destruct (f_parent f) as [p|]; [|reflexivity]. destruct (fd_repo (f_desc p)); [reflexivity|now rewrite tag_set, H].
Qed.
Lemma tag_repo : forall pre f s, tag s (pre ++ str ".Repository") = None -> repository f (tag (repo_tags pre f s) (pre ++ str ".Repository")).
Proof.
  intros pre f s H. unfold repo_tags, repository. destruct (fd_repo (f_desc f)) as [|x l].
  - right. destruct (f_parent f) as [p|].
    + destruct (fd_repo (f_desc p)) as [|x l] eqn:P.
      * right. split; [reflexivity|]. split; [intros q Q; congruence|exact H].
      * left. split; [reflexivity|]. exists p. rewrite P, tag_set, beq_refl. split; [reflexivity|]. split; [discriminate|reflexivity].
    + right. split; [reflexivity|]. split; [discriminate|exact H].
  - left. rewrite tag_set, beq_refl. split; [discriminate|reflexivity].
Qed.

Ltac tags := repeat first
  [ rewrite file_tags_eq
  | rewrite tag_set
  | rewrite tag_repo_other by (vm_compute; reflexivity)
  | match goal with |- context [beq ?a ?b] => let v := eval vm_compute in (beq a b) in change (beq a b) with v; cbv iota end ].

Lemma cert_tags_eq : forall c s, cert_tags (str "Certificate") (Some c) s =
  set_tag (str "Certificate.SerialNumber") (dec (c_serial c)) (set_tag (str "Certificate.AuthorityKeyId") (hexs (c_aki c)) (set_tag (str "Certificate.SubjectKeyId") (hexs (c_ski c)) s)).
Proof. reflexivity. Qed.

(** Tags that a part of an error does not set. *)
Lemma seek_other : forall sk s k, beq k (str "File.Sha256") = false -> beq k (str "File.Length") = false -> tag (seek_tags sk s) k = tag s k.
Proof. intros [(d & sha)|] s k A B; [|reflexivity]. cbn [seek_tags]. now rewrite !tag_set, A, B. Qed.
Lemma cert_other : forall pre o s k, beq k (pre ++ str ".SerialNumber") = false -> beq k (pre ++ str ".AuthorityKeyId") = false ->
  beq k (pre ++ str ".SubjectKeyId") = false -> tag (cert_tags pre o s) k = tag s k.
Proof. intros pre [c|] s k A B C; [|reflexivity]. cbn [cert_tags]. now rewrite !tag_set, A, B, C. Qed.
Lemma file_other : forall pre o s k, beq k (pre ++ str ".Repository") = false -> beq k (pre ++ str ".Path") = false ->
  beq k (pre ++ str ".Type") = false -> tag (file_tags pre o s) k = tag s k.
Proof. intros pre [f|] s k A B C; [|reflexivity]. now rewrite file_tags_eq, !tag_set, B, C, tag_repo_other. Qed.

(** Those it sets. *)
Lemma cert_own : forall o s, tag s (str "Certificate.SubjectKeyId") = None -> tag s (str "Certificate.AuthorityKeyId") = None -> tag s (str "Certificate.SerialNumber") = None ->
  tag (cert_tags (str "Certificate") o s) (str "Certificate.SubjectKeyId") = option_map (fun c => hexs (c_ski c)) o /\
  tag (cert_tags (str "Certificate") o s) (str "Certificate.AuthorityKeyId") = option_map (fun c => hexs (c_aki c)) o /\
  tag (cert_tags (str "Certificate") o s) (str "Certificate.SerialNumber") = option_map (fun c => dec (c_serial c)) o.
Proof. intros [c|] s A B C; [|auto]. rewrite cert_tags_eq, !tag_set. cbn [option_map]. repeat split; reflexivity. Qed.
Lemma file_own : forall pre o s, pre = str "File" \/ pre = str "InnerFile" ->
  tag s (pre ++ str ".Path") = None -> tag s (pre ++ str ".Type") = None -> tag s (pre ++ str ".Repository") = None ->
  tag (file_tags pre o s) (pre ++ str ".Path") = option_map f_path o /\
  tag (file_tags pre o s) (pre ++ str ".Type") = option_map (fun f => type_name (f_type f)) o /\
  forall f, o = Some f -> repository f (tag (file_tags pre o s) (pre ++ str ".Repository")).
Proof.
  intros pre [f|] s P A B C; [|repeat split; auto; discriminate]. rewrite file_tags_eq, !tag_set, !beq_refl.
  assert (N : beq (pre ++ str ".Path") (pre ++ str ".Type") = false /\ beq (pre ++ str ".Repository") (pre ++ str ".Type") = false /\ beq (pre ++ str ".Repository") (pre ++ str ".Path") = false).
  { destruct P as [-> | ->]; vm_compute; auto. }
  destruct N as (-> & -> & ->). repeat split. intros f0 E. injection E as <-. now apply tag_repo.
Qed.

Ltac elsewhere := repeat first
  [ rewrite seek_other by (vm_compute; reflexivity)
  | rewrite file_other by (vm_compute; reflexivity)
  | rewrite cert_other by (vm_compute; reflexivity)
  | rewrite tag_set; match goal with |- context [beq ?a ?b] => replace (beq a b) with false by (vm_compute; reflexivity); cbv iota end ].

Lemma cerr_tagged : forall c, tagged (ErrCert c) (tag (cerr_tags c [])).
Proof.
  intros c. unfold tagged, cerr_tags. cbn [type_of file_of inner_of cert_of].
  set (s0 := set_tag (str "Type") (kind_name (ce_kind c)) []).
  assert (Z : forall k, beq k (str "Type") = false -> tag s0 k = None) by (intros k H; unfold s0; rewrite tag_set, H; reflexivity).
  destruct (cert_own (ce_cert c) s0) as (C1 & C2 & C3); [now apply Z..|].
  set (s1 := cert_tags (str "Conflict") (ce_conflict c) (cert_tags (str "Certificate") (ce_cert c) s0)).
  assert (F0 : forall k, In k [str "File.Path"; str "File.Type"; str "File.Repository"; str "InnerFile.Path"; str "InnerFile.Type"; str "InnerFile.Repository"] -> tag s1 k = None).
  { intros k K. unfold s1. repeat (destruct K as [<-|K]; [elsewhere; now apply Z|]). destruct K. }
  destruct (file_own (str "File") (ce_file c) s1) as (P1 & P2 & P3); [now left|apply F0; cbn; auto 8..|].
  destruct (file_own (str "InnerFile") (ce_innerfile c) (file_tags (str "File") (ce_file c) s1)) as (I1 & I2 & _); [now right|elsewhere; apply F0; cbn; auto 8..|].
  repeat split.
  - elsewhere. unfold s1. elsewhere. reflexivity.
  - elsewhere. exact P1.
  - elsewhere. exact P2.
  - intros f F. elsewhere. exact (P3 f F).
  - elsewhere. exact I1.
  - elsewhere. exact I2.
  - elsewhere. unfold s1. elsewhere. exact C1.
  - elsewhere. unfold s1. elsewhere. exact C2.
  - elsewhere. unfold s1. elsewhere. exact C3.
Qed.
(** ResourceError: tags of the inner error that has no files. *)
Lemma res_tagged : forall k i f sk,
  tag (err_tags i []) (str "File.Path") = None -> tag (err_tags i []) (str "File.Type") = None -> tag (err_tags i []) (str "File.Repository") = None ->
  tag (err_tags i []) (str "InnerFile.Path") = None -> tag (err_tags i []) (str "InnerFile.Type") = None ->
  tag (err_tags i []) (str "Certificate.SubjectKeyId") = option_map (fun c => hexs (c_ski c)) (cert_of i) ->
  tag (err_tags i []) (str "Certificate.AuthorityKeyId") = option_map (fun c => hexs (c_aki c)) (cert_of i) ->
  tag (err_tags i []) (str "Certificate.SerialNumber") = option_map (fun c => dec (c_serial c)) (cert_of i) ->
  tagged (ErrRes k i f sk) (tag (err_tags (ErrRes k i f sk) [])).
Proof.
  intros k i f sk A1 A2 A3 A4 A5 A6 A7 A8. unfold tagged. cbn [type_of file_of inner_of cert_of err_tags option_map]. set (t := err_tags i []) in *.
  destruct (file_own (str "File") f (set_tag (str "Type") (kind_name k) t)) as (P1 & P2 & P3); [now left|elsewhere; assumption..|].
  repeat split; try (elsewhere; assumption).
  elsewhere. rewrite tag_set. reflexivity.
Qed.
Lemma no_file_repo : forall c, ce_file c = None -> tag (cerr_tags c []) (str "File.Repository") = None.
Proof. intros c H. unfold cerr_tags. rewrite H. elsewhere. cbn [file_tags]. elsewhere. reflexivity. Qed.

Lemma tagged_ext : forall e t t', (forall k, k <> str "TrustAnchor" -> t k = t' k) -> tagged e t -> tagged e t'.
Proof.
  intros e t t' H (A1 & A2 & A3 & A4 & A5 & A6 & A7 & A8 & A9). unfold tagged. rewrite <- !H by discriminate. repeat split; assumption.
Qed.

Lemma sent_tags : forall ta e, sent e -> tag (collected ta (Some e)) (str "TrustAnchor") = Some ta /\
  ((exists t, e = ErrPlain t) \/ tagged e (tag (collected ta (Some e)))).
Proof.
  intros ta e S0. assert (S1 : exists f sk b, (fresh b \/ exists h w, b = err_hash h w) /\ e = add_info f sk b).
  { destruct S0 as [(f & sk & b & F & ->)|(f & d & h & w & _ & _ & ->)]; do 3 eexists; (split; [|reflexivity]); eauto. }
  clear S0. destruct S1 as (f & sk & b & F & ->). unfold collected. split; [rewrite tag_set, beq_refl; reflexivity|].
  assert (G : (exists t, add_info f sk b = ErrPlain t) \/ tagged (add_info f sk b) (tag (err_tags (add_info f sk b) []))).
  { destruct F as [F|(h & w & ->)]; [destruct F as [t|e M|t|e M MI|t]|]; cbn [add_info wrap err_hash].
    - left. eauto.
    - right. exact (cerr_tagged (with_file f sk e)).
    - right. exact (cerr_tagged (with_file f sk (err_file t))).
    - right. assert (NF : ce_file e = None) by (destruct M; reflexivity).
      destruct (cerr_tagged e) as (_ & A2 & A3 & _ & A5 & A6 & A7 & A8 & A9). cbn [file_of inner_of cert_of] in *. rewrite NF in A2, A3. rewrite MI in A5, A6.
      apply res_tagged; try assumption. now apply no_file_repo.
    - right. apply res_tagged; reflexivity.
    - right. apply res_tagged; reflexivity. }
  destruct G as [G|G]; [now left|right]. eapply tagged_ext; [|exact G]. intros k K. rewrite tag_set. apply beq_neq in K. now rewrite K.
Qed.

(** *** Digests *)
Lemma sent_hash : forall nt ta e, sent e -> type_of e = EHash ->
  exists f have want, file_of e = Some f /\ fd_hash (f_desc f) = Some want /\ have <> want /\
    err_text nt e = Ret (str "file hash is " ++ hexs have ++ str ", expected " ++ hexs want ++ str " from manifest") /\
    tag (collected ta (Some e)) (str "File.Sha256") = Some (hexs have).
Proof.
  intros nt ta e [(f & sk & b & F & ->)|(f & d & h & w & A & B & ->)] T.
  - exfalso. destruct F as [t|e M|t|e M _|t]; try discriminate; destruct M; discriminate.
  - exists f, h, w. repeat split; auto. unfold collected. cbn [add_info err_hash err_tags seek_tags]. tags. reflexivity.
Qed.

(** *** Names *)
Lemma kind_names : forall k k', kind_name k = kind_name k' -> k = k'.
Proof. intros [] [] H; try reflexivity; vm_compute in H; discriminate H. Qed.
Lemma type_names : forall k k', type_name k = type_name k' -> k = k'.
Proof. intros [] [] H; try reflexivity; vm_compute in H; discriminate H. Qed.

(** *** Conflicts *)
Lemma cert_err_no_conflict : forall sig_ok tt st c tr v e, cert_err sig_ok tt st c tr v = VRet (Some e) -> ce_kind e <> EConflict.
Proof.
  intros sig_ok tt st c tr v e H K. assert (X := cert_err_kind sig_ok tt st c tr v). rewrite H in X. cbn [vbind option_map] in X. rewrite K in X.
  revert X. unfold cert_error. destruct (negb (time_ok c (v_time v))); [discriminate|]. destruct tr; [discriminate|].
  destruct (v_valid v (c_aki c)) as [pa|]; [|discriminate]. destruct (deref (v_heap v) pa) as [pr| |]; cbn [vbind]; try discriminate.
  destruct (r_obj pr); try discriminate. destruct (negb (sig_ok c0 c)); [discriminate|]. destruct (kin _ _); [discriminate|].
  destruct (validate_ip_list _ _) as [((x & y) & z)|]; cbn [vgo vbind]; try discriminate.
  destruct (ip_chain _ _ _ _ _ _ _) as [[inv|]| |]; cbn [vbind]; try discriminate.
  destruct (validate_as_list _ _) as ((x' & y') & z').
  destruct (as_chain _ _ _ _ _ _ _) as [[ainv|]| |]; cbn [vbind]; try discriminate. destruct inv, ainv; discriminate.
Qed.
Lemma conflict_told : forall sig_ok tt st ta c tr v e, add_cert_err sig_ok tt st c tr v = VRet (Some e) ->
  (ce_kind e = EConflict <-> v_objects v (c_ski c) <> None) /\
  forall a r o, ce_kind e = EConflict -> v_objects v (c_ski c) = Some a -> nth_error (v_heap v) a = Some r -> r_obj r = OCert o ->
    forall f sk, let t := tag (collected ta (Some (add_info f sk (ErrCert e)))) in
      t (str "Conflict.SubjectKeyId") = Some (hexs (c_ski o)) /\
      t (str "Conflict.AuthorityKeyId") = Some (hexs (c_aki o)) /\
      t (str "Conflict.SerialNumber") = Some (dec (c_serial o)).
Proof.
  intros sig_ok tt st ta c tr v e H. unfold add_cert_err, kin in H. destruct (v_objects v (c_ski c)) as [a|] eqn:V.
  - inversion H; subst e; clear H. split; [split; [discriminate|reflexivity]|].
    intros a' r o _ E N O f sk. injection E as <-. unfold conflict_of. rewrite V, N, O. cbv zeta. unfold collected.
    cbn [add_info err_tags with_file]. unfold cerr_tags. cbn [with_file err_conflict ce_kind ce_cert ce_conflict ce_innerfile ce_file ce_seek ce_msg ce_inner ce_ips ce_asns].
    change (file_tags (str "InnerFile") None) with (fun s : scope => s). cbv beta.
    assert (S : forall s k, beq k (str "File.Sha256") = false -> beq k (str "File.Length") = false -> tag (seek_tags sk s) k = tag s k).
    { intros s k A B. destruct sk as [(d & sha)|]; [|reflexivity]. cbn [seek_tags]. now rewrite !tag_set, A, B. }
    cbn [cert_tags]. repeat split; repeat first [ progress tags | rewrite S by (vm_compute; reflexivity) ]; reflexivity.
  - assert (K := cert_err_no_conflict _ _ _ _ _ _ _ H). split; [split; [contradiction|congruence]|]. intros; contradiction.
Qed.
