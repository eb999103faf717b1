(** What a resource error lists. *)
From Coq Require Import Lia String Permutation.
From Verif.Model Require Import Base NetIP CertRes Roa Str TalText NetText Ber Tal Validator Explore ErrReport ErrText.
From Verif.Spec Require Import Resources Trust ErrReportSpec ErrTextSpec.
From Verif.Proofs Require Import CertProofs ValidatorRes ErrTextProofs ErrTextThm.
Open Scope Z_scope.

Lemma deref_nth : forall h a r, deref h a = VRet r -> nth_error h a = Some r.
Proof. unfold deref. intros h a r H. destruct (nth_error h a); [congruence|discriminate]. Qed.

Lemma perm_parts {A} (l v iv c : list A) : Permutation l (v ++ iv ++ c) ->
  (forall i, In i l -> In i v \/ In i iv \/ In i c) /\ (forall i, In i iv -> In i l) /\ (forall i, In i c -> In i l).
Proof.
  intros P. repeat split; intros i I.
  - apply (Permutation_in i P) in I. apply in_app_or in I as [I|I]; auto. apply in_app_or in I as [I|I]; auto.
  - apply (Permutation_in i (Permutation_sym P)). apply in_or_app. right. apply in_or_app. auto.
  - apply (Permutation_in i (Permutation_sym P)). apply in_or_app. right. apply in_or_app. auto.
Qed.

Lemma ip_parts : forall l p v iv c, validate_ip_list l p = Ret (v, iv, c) -> wf_list p -> Forall wf_claim l ->
  (forall i, In i v -> (exists fam, inherits i fam) \/ exists fam lo hi, denotes i fam lo hi /\ covered p fam lo hi) /\
  (forall i, In i c -> exists fam lo hi, denotes i fam lo hi /\ inherited p fam) /\
  (forall i, In i iv -> exists fam lo hi, denotes i fam lo hi /\ ~ covered p fam lo hi /\ ~ inherited p fam).
Proof.
  intros l p v iv c E W F. destruct (validate_ip_list_spec l p W F) as (v' & iv' & c' & E' & H). rewrite E in E'. inversion E'; subst. exact H.
Qed.

(** The loop adds elements that the certificate under [key] refused. *)
Lemma ip_chain_adds : forall fuel h valid key chain check inv inv', ip_chain fuel h valid key chain check inv = VRet (Some inv') ->
  incl inv inv' /\ forall i, In i inv' -> In i inv \/
    (In i check /\ exists a r g l v iv c, valid key = Some a /\ nth_error h a = Some r /\ r_obj r = OCert g /\ incl l check /\
       validate_ip_list l (c_ips g) = Ret (v, iv, c) /\ In i iv).
Proof.
  induction fuel as [|fuel IH]; intros h valid key chain check inv inv' H; cbn [ip_chain] in H.
  - destruct chain; [destruct check|]; try discriminate; inversion H; subst; (split; [apply incl_refl|auto]).
  - destruct chain as [a|]; [|inversion H; subst; split; [apply incl_refl|auto]].
    destruct check as [|i0 ck0]; [inversion H; subst; split; [apply incl_refl|auto]|].
    destruct (valid key) as [u|] eqn:K; [|discriminate]. destruct (deref h u) as [ur| |] eqn:D; cbn [vbind] in H; try discriminate.
    destruct (r_obj ur) eqn:O; try discriminate.
    destruct (validate_ip_list (i0 :: ck0) (c_ips c)) as [((v1 & iv1) & c1)|] eqn:V; cbn [vgo vbind] in H; [|discriminate].
    destruct (deref h a) as [ar| |]; cbn [vbind] in H; try discriminate.
    destruct (perm_parts _ _ _ _ (validate_ip_list_perm _ _ _ _ _ V)) as (_ & P2 & P3).
    destruct (IH _ _ _ _ _ _ _ H) as (A & B). split; [intros i I; apply A; apply in_or_app; auto|].
    intros i I. destruct (B i I) as [J|(J & a1 & r1 & g1 & l1 & v2 & iv2 & c2 & K1 & N1 & O1 & L1 & V1 & I1)].
    + apply in_app_or in J as [J|J]; auto. right. split; [now apply P2|].
      exists u, ur, c, (i0 :: ck0), v1, iv1, c1. rewrite (deref_nth _ _ _ D). repeat split; auto. apply incl_refl.
    + right. split; [now apply P3|]. exists a1, r1, g1, l1, v2, iv2, c2. rewrite K1 in K. repeat split; auto; try congruence.
      intros x X. apply P3. now apply L1.
Qed.
Lemma as_chain_adds : forall fuel h valid key chain check inv inv', as_chain fuel h valid key chain check inv = VRet (Some inv') ->
  incl inv inv' /\ forall i, In i inv' -> In i inv \/
    (In i check /\ exists a r g l v iv c, valid key = Some a /\ nth_error h a = Some r /\ r_obj r = OCert g /\ incl l check /\
       validate_as_list l (c_asns g) = (v, iv, c) /\ In i iv).
Proof.
  induction fuel as [|fuel IH]; intros h valid key chain check inv inv' H; cbn [as_chain] in H.
  - destruct chain; [destruct check|]; try discriminate; inversion H; subst; (split; [apply incl_refl|auto]).
  - destruct chain as [a|]; [|inversion H; subst; split; [apply incl_refl|auto]].
    destruct check as [|i0 ck0]; [inversion H; subst; split; [apply incl_refl|auto]|].
    destruct (valid key) as [u|] eqn:K; [|discriminate]. destruct (deref h u) as [ur| |] eqn:D; cbn [vbind] in H; try discriminate.
    destruct (r_obj ur) eqn:O; try discriminate.
    destruct (validate_as_list (i0 :: ck0) (c_asns c)) as ((v1 & iv1) & c1) eqn:V.
    destruct (deref h a) as [ar| |]; cbn [vbind] in H; try discriminate.
    destruct (perm_parts _ _ _ _ (validate_as_list_perm _ _ _ _ _ V)) as (_ & P2 & P3).
    destruct (IH _ _ _ _ _ _ _ H) as (A & B). split; [intros i I; apply A; apply in_or_app; auto|].
    intros i I. destruct (B i I) as [J|(J & a1 & r1 & g1 & l1 & v2 & iv2 & c2 & K1 & N1 & O1 & L1 & V1 & I1)].
    + apply in_app_or in J as [J|J]; auto. right. split; [now apply P2|].
      exists u, ur, c, (i0 :: ck0), v1, iv1, c1. rewrite (deref_nth _ _ _ D). repeat split; auto. apply incl_refl.
    + right. split; [now apply P3|]. exists a1, r1, g1, l1, v2, iv2, c2. rewrite K1 in K. repeat split; auto; try congruence.
      intros x X. apply P3. now apply L1.
Qed.

Lemma as_not_null : forall l p v iv c, validate_as_list l p = (v, iv, c) -> ~ In ASNull iv /\ ~ In ASNull c.
Proof.
  induction l as [|i l IH]; intros p v iv c H; cbn [validate_as_list] in H; [inversion H; auto|].
  destruct (as_get_range i) as ((mn & mx) & cp) eqn:G. destruct (validate_as_list l p) as ((v1 & iv1) & c1) eqn:V.
  destruct (IH _ _ _ _ V) as (A & B). destruct cp; [inversion H; subst; auto|].
  assert (N : i <> ASNull) by (intros ->; discriminate).
  destruct (is_as_range_in p mn mx) as ([|] & ck); [inversion H; subst; auto|].
  destruct ck; inversion H; subst; split; auto; intros [X|X]; auto.
Qed.
Lemma as_texts : forall l, ~ In ASNull l -> Forall2 as_shown l (map as_text l).
Proof.
  induction l as [|i l IH]; intros N; [constructor|]. cbn [map]. apply Forall2_cons.
  - destruct i; try constructor. destruct (N (or_introl eq_refl)).
  - apply IH. intros I. apply N. now right.
Qed.

Lemma join_cons : forall sep l x, join sep (x :: l) = x ++ concat (map (fun y => sep ++ y) l).
Proof.
  intros sep l. induction l as [|y l IH]; intros x; cbn [join map concat]; [now rewrite app_nil_r|].
  cbn [join] in IH. rewrite IH. rewrite <- app_assoc. reflexivity.
Qed.
Lemma res_listing : forall w l, listing w l (res_part w l).
Proof. intros w [|x l]; [constructor|]. unfold res_part. rewrite join_cons, <- (app_assoc x). apply li_some. Qed.

Section Resource.
Variable sig_ok : cert -> cert -> bool.
Variable nil_text : go bytes.
Variable time_text : Z -> bytes.
Variable sig_text : cert -> cert -> bytes.

Lemma resource_lists : forall c trust v e, cert_err sig_ok time_text sig_text c trust v = VRet (Some e) -> ce_kind e = EResource ->
  exists p ipt ast a b, valid_under v (c_aki c) p /\ sig_ok p c = true /\ ce_cert e = Some c /\
    cerr_text nil_text e = Ret (str "resource issue for certificate ski:" ++ hexs (c_ski c) ++ str " aki:" ++ hexs (c_aki c) ++ a ++ b) /\
    Forall2 ip_shown (ce_ips e) ipt /\ listing (str "IP") ipt a /\ Forall2 as_shown (ce_asns e) ast /\ listing (str "ASN") ast b /\
    (ce_ips e <> [] \/ ce_asns e <> []) /\ incl (ce_ips e) (c_ips c) /\ incl (ce_asns e) (c_asns c) /\
    (Forall wf_claim (c_ips c) -> wf_list (c_ips p) ->
       (forall i, In i (ce_ips e) -> ip_not_held v p i) /\
       forall i fam lo hi, In i (c_ips c) -> denotes i fam lo hi -> ~ covered (c_ips p) fam lo hi -> ~ inherited (c_ips p) fam ->
         In i (ce_ips e)) /\
    (Forall as_claim (c_asns c) ->
       (forall i, In i (ce_asns e) -> as_not_held v p i) /\
       forall i lo hi, In i (c_asns c) -> as_denotes i lo hi -> ~ as_covered (c_asns p) lo hi -> ~ In ASNull (c_asns p) ->
         In i (ce_asns e)).
Proof.
  intros c t v e H K. assert (M := cert_err_made sig_ok time_text sig_text c t v e H). unfold cert_err in H.
  destruct (negb (time_ok c (v_time v))); [inversion H; subst; discriminate|].
  destruct t; [discriminate|]. destruct (v_valid v (c_aki c)) as [pa|] eqn:PA; [|inversion H; subst; discriminate].
  destruct (deref (v_heap v) pa) as [pr| |] eqn:DR; cbn [vbind] in H; try discriminate.
  destruct (r_obj pr) as [p| | | |] eqn:O; try (inversion H; subst; discriminate).
  destruct (negb (sig_ok p c)) eqn:SG; [inversion H; subst; discriminate|].
  destruct (kin (v_revoked v) _); [inversion H; subst; discriminate|].
  destruct (validate_ip_list _ _) as [((vl & iv) & ck)|] eqn:V; cbn [vgo vbind] in H; [|discriminate].
  destruct (ip_chain _ _ _ _ _ _ _) as [[inv|]| |] eqn:C; cbn [vbind] in H; try discriminate.
  2:{ inversion H; subst; discriminate. }
  destruct (validate_as_list _ _) as ((avl & aiv) & ack) eqn:AV.
  destruct (as_chain _ _ _ _ _ _ _) as [[ainv|]| |] eqn:AC; cbn [vbind] in H; try discriminate.
  2:{ inversion H; subst; discriminate. }
  assert (E : e = err_resource c inv ainv /\ (inv <> [] \/ ainv <> [])).
  { destruct inv, ainv; try discriminate; inversion H; split; auto; try (left; discriminate). right; discriminate. }
  destruct E as (-> & NE). clear H K.
  destruct (validate_shown _ _ _ _ _ V) as (_ & SI & SC). assert (S := chain_shown _ _ _ _ _ _ _ _ C SC SI).
  destruct (item_texts nil_text inv S) as (ipt & IT & IS).
  destruct (as_not_null _ _ _ _ _ AV) as (NN1 & NN2).
  destruct (ip_chain_adds _ _ _ _ _ _ _ _ C) as (I1 & I2). destruct (as_chain_adds _ _ _ _ _ _ _ _ AC) as (A1 & A2).
  assert (NN : ~ In ASNull ainv).
  { intros I. destruct (A2 _ I) as [J|(J & _)]; contradiction. }
  destruct (perm_parts _ _ _ _ (validate_ip_list_perm _ _ _ _ _ V)) as (P1 & P2 & P3).
  destruct (perm_parts _ _ _ _ (validate_as_list_perm _ _ _ _ _ AV)) as (Q1 & Q2 & Q3).
  exists p, ipt, (map as_text ainv), (res_part (str "IP") ipt), (res_part (str "ASN") (map as_text ainv)).
  cbn [ce_ips ce_asns ce_cert err_resource].
  split. { exists pa, pr. repeat split; auto. now apply deref_nth. }
  split. { now destruct (sig_ok p c). }
  split; [reflexivity|].
  split. { unfold cerr_text. cbn [ce_ips ce_asns ce_cert ce_inner ce_msg err_resource]. rewrite IT. cbn [gbind]. f_equal. rewrite <- !app_assoc. reflexivity. }
  split; [exact IS|]. split; [apply res_listing|]. split; [now apply as_texts|]. split; [apply res_listing|].
  split; [exact NE|].
  split. { intros i I. destruct (I2 i I) as [J|(J & _)]; auto. }
  split. { intros i I. destruct (A2 i I) as [J|(J & _)]; auto. }
  split.
  - intros WC WP. destruct (ip_parts _ _ _ _ _ V WP WC) as (X1 & X2 & X3). split.
    + intros i I. destruct (I2 i I) as [J|(J & a1 & r1 & g & l & v2 & iv2 & c2 & K1 & N1 & O1 & L1 & V1 & J1)].
      * destruct (X3 i J) as (fam & lo & hi & D & NC & NI). exists fam, lo, hi. auto.
      * destruct (X2 i J) as (fam & lo & hi & D & IH). exists fam, lo, hi. split; [exact D|]. right. split; [exact IH|].
        exists g. split; [exists a1, r1; auto|]. intros WG.
        assert (WL : Forall wf_claim l). { apply Forall_forall. intros x X. eapply Forall_forall in WC; [exact WC|]. apply P3. now apply L1. }
        destruct (ip_parts _ _ _ _ _ V1 WG WL) as (_ & _ & Y). destruct (Y i J1) as (fam' & lo' & hi' & D' & Z1 & Z2).
        destruct (denotes_fun _ _ _ _ _ _ _ D D') as (-> & -> & ->). auto.
    + intros i fam lo hi I D NC NI. apply I1. destruct (P1 i I) as [J|[J|J]]; auto.
      * destruct (X1 i J) as [(f' & IH)|(f' & lo' & hi' & D' & CV)].
        -- destruct IH; inversion D.
        -- destruct (denotes_fun _ _ _ _ _ _ _ D D') as (-> & -> & ->). contradiction.
      * destruct (X2 i J) as (f' & lo' & hi' & D' & IH). destruct (denotes_fun _ _ _ _ _ _ _ D D') as (-> & -> & ->). contradiction.
  - intros WC. destruct (validate_as_list_spec _ _ WC _ _ _ AV) as (X1 & X2 & X3). split.
    + intros i I. destruct (A2 i I) as [J|(J & a1 & r1 & g & l & v2 & iv2 & c2 & K1 & N1 & O1 & L1 & V1 & J1)].
      * destruct (X3 i J) as (lo & hi & D & NC & NI). exists lo, hi. auto.
      * destruct (X2 i J) as (IH & lo & hi & D). exists lo, hi. split; [exact D|]. right. split; [exact IH|].
        exists g. split; [exists a1, r1; auto|].
        assert (WL : Forall as_claim l). { apply Forall_forall. intros x X. eapply Forall_forall in WC; [exact WC|]. apply Q3. now apply L1. }
        destruct (validate_as_list_spec _ _ WL _ _ _ V1) as (_ & _ & Y). destruct (Y i J1) as (lo' & hi' & D' & Z1 & Z2).
        destruct (as_denotes_fun _ _ _ _ _ D D') as (-> & ->). auto.
    + intros i lo hi I D NC NI. apply A1. destruct (Q1 i I) as [J|[J|J]]; auto.
      * destruct (X1 i J) as [->|(lo' & hi' & D' & CV)]; [inversion D|].
        destruct (as_denotes_fun _ _ _ _ _ D D') as (-> & ->). contradiction.
      * destruct (X2 i J) as (IH & _). contradiction.
Qed.

(** An expired certificate: the text does not depend on the end of validity. *)
Lemma expired_text : forall c trust v, c_not_before c <= v_time v -> c_not_after c < v_time v ->
  exists e, cert_err sig_ok time_text sig_text c trust v = VRet (Some e) /\ ce_kind e = EExpiration /\
    cerr_text nil_text e = Ret (str "expiration issue for certificate ski:" ++ hexs (c_ski c) ++ str " aki:" ++ hexs (c_aki c) ++
      str ": Certificate end of validity: " ++ time_text (c_not_before c) ++ str " is before: " ++ time_text (v_time v)).
Proof.
  intros c t v B A. exists (err_validity c (time_error time_text c (v_time v))). unfold cert_err, time_ok.
  assert (v_time v <? c_not_before c = false) by lia. assert (c_not_after c <? v_time v = true) by lia.
  rewrite H, H0. cbn [negb andb]. split; [reflexivity|]. split; [reflexivity|].
  unfold time_error. rewrite H. unfold cerr_text. cbn [ce_ips ce_asns ce_cert ce_inner ce_msg err_validity ip_item_texts gbind map res_part].
  rewrite !app_nil_r, <- !app_assoc. reflexivity.
Qed.
Lemma early_text : forall c trust v, v_time v < c_not_before c ->
  exists e, cert_err sig_ok time_text sig_text c trust v = VRet (Some e) /\ ce_kind e = EExpiration /\
    cerr_text nil_text e = Ret (str "expiration issue for certificate ski:" ++ hexs (c_ski c) ++ str " aki:" ++ hexs (c_aki c) ++
      str ": Certificate beginning of validity: " ++ time_text (c_not_before c) ++ str " is after: " ++ time_text (v_time v)).
Proof.
  intros c t v B. exists (err_validity c (time_error time_text c (v_time v))). unfold cert_err, time_ok.
  assert (v_time v <? c_not_before c = true) by lia.
  rewrite H. cbn [negb andb]. split; [reflexivity|]. split; [reflexivity|].
  unfold time_error. rewrite H. unfold cerr_text. cbn [ce_ips ce_asns ce_cert ce_inner ce_msg err_validity ip_item_texts gbind map res_part].
  rewrite !app_nil_r, <- !app_assoc. reflexivity.
Qed.
End Resource.
