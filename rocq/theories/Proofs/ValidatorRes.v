(** C06: resources claimed by valid certificates. *)
From Coq Require Import Lia Permutation.
From Verif.Model Require Import Base NetIP CertRes Roa Str Tal Validator.
From Verif.Spec Require Import Addr Resources Trust.
From Verif.Proofs Require Import CertProofs StrProofs HeapProofs Invalidate ValidatorInv ValidatorRun ValidatorMono ValidatorAccept ValidatorFacts.

Lemma ip_chain_prefix : forall fuel h valid key chain check inv res,
  ip_chain fuel h valid key chain check inv = VRet (Some res) -> exists t, res = inv ++ t.
Proof.
  induction fuel as [|fuel IH]; intros h valid key chain check inv res H; destruct chain as [a|];
    destruct check as [|i l]; cbn [ip_chain] in H; try discriminate;
    try (inversion H; subst; exists []; now rewrite app_nil_r).
  destruct (valid key) as [u|]; [|discriminate]. vb H. destruct (r_obj y); try discriminate.
  vb H. destruct y0 as [[x z] w]. vb H. apply IH in H. destruct H as (t & ->).
  exists (z ++ t). now rewrite app_assoc.
Qed.
Lemma as_chain_prefix : forall fuel h valid key chain check inv res,
  as_chain fuel h valid key chain check inv = VRet (Some res) -> exists t, res = inv ++ t.
Proof.
  induction fuel as [|fuel IH]; intros h valid key chain check inv res H; destruct chain as [a|];
    destruct check as [|i l]; cbn [as_chain] in H; try discriminate;
    try (inversion H; subst; exists []; now rewrite app_nil_r).
  destruct (valid key) as [u|]; [|discriminate]. vb H. destruct (r_obj y); try discriminate.
  destruct (validate_as_list (i :: l) (c_asns c)) as [[x z] w]. vb H. apply IH in H. destruct H as (t & ->).
  exists (z ++ t). now rewrite app_assoc.
Qed.

Lemma vgo_ret : forall A (x : go A) y, vgo x = VRet y -> x = Ret y.
Proof. intros A x y H. destruct x; inversion H; auto. Qed.

Lemma ip_chain_ok : forall fuel h valid key chain check inv,
  ip_chain fuel h valid key chain check inv = VRet (Some []) ->
  inv = [] /\ (check = [] \/ chain = None \/
    exists u cc vs c, valid key = Some u /\ hobj h u = Some (OCert cc) /\
      validate_ip_list check (c_ips cc) = Ret (vs, [], c)).
Proof.
  intros fuel h valid key chain check inv H.
  assert (IN : inv = []).
  { destruct (ip_chain_prefix _ _ _ _ _ _ _ _ H) as (t & E). symmetry in E. now apply app_eq_nil in E. }
  split; auto. subst inv. destruct chain as [a|]; [|auto]. destruct check as [|i l]; [auto|].
  right. right. destruct fuel; [discriminate|]. cbn [ip_chain] in H.
  destruct (valid key) as [u|]; [|discriminate]. vb H. destruct (deref_hobj _ _ _ E) as (HO & _).
  destruct (r_obj y) as [cc| | | |]; try discriminate.
  vb H. destruct y0 as [[x z] w]. vb H. apply vgo_ret in E0.
  destruct (ip_chain_prefix _ _ _ _ _ _ _ _ H) as (t & E2). symmetry in E2. apply app_eq_nil in E2. destruct E2 as [E2 _].
  cbn in E2. subst z. exists u, cc, x, w. auto.
Qed.
Lemma as_chain_ok : forall fuel h valid key chain check inv,
  as_chain fuel h valid key chain check inv = VRet (Some []) ->
  inv = [] /\ (check = [] \/ chain = None \/
    exists u cc vs c, valid key = Some u /\ hobj h u = Some (OCert cc) /\
      validate_as_list check (c_asns cc) = (vs, [], c)).
Proof.
  intros fuel h valid key chain check inv H.
  assert (IN : inv = []).
  { destruct (as_chain_prefix _ _ _ _ _ _ _ _ H) as (t & E). symmetry in E. now apply app_eq_nil in E. }
  split; auto. subst inv. destruct chain as [a|]; [|auto]. destruct check as [|i l]; [auto|].
  right. right. destruct fuel; [discriminate|]. cbn [as_chain] in H.
  destruct (valid key) as [u|]; [|discriminate]. vb H. destruct (deref_hobj _ _ _ E) as (HO & _).
  destruct (r_obj y) as [cc| | | |]; try discriminate.
  destruct (validate_as_list (i :: l) (c_asns cc)) as [[x z] w] eqn:E0. vb H.
  destruct (as_chain_prefix _ _ _ _ _ _ _ _ H) as (t & E2). symmetry in E2. apply app_eq_nil in E2. destruct E2 as [E2 _].
  cbn in E2. subst z. exists u, cc, x, w. auto.
Qed.

(** The outcome of the resource checks, in terms of the heap. *)
Definition held (h : list resource) (c : cert) (pa : addr) (pc : cert) : Prop :=
  (exists vs chk, validate_ip_list (c_ips c) (c_ips pc) = Ret (vs, [], chk) /\
    (chk = [] \/ hpar h pa = None \/
     exists g gc vs2 chk2, hpar h pa = Some g /\ hobj h g = Some (OCert gc) /\
       validate_ip_list chk (c_ips gc) = Ret (vs2, [], chk2))) /\
  (exists vs chk, validate_as_list (c_asns c) (c_asns pc) = (vs, [], chk) /\
    (chk = [] \/ hpar h pa = None \/
     exists g gc vs2 chk2, hpar h pa = Some g /\ hobj h g = Some (OCert gc) /\
       validate_as_list chk (c_asns gc) = (vs2, [], chk2))).

Section Res.
Variable sig_ok : cert -> cert -> bool.
Variable crl_sig_ok : cert -> crl -> bool.
Variable dec_tal : bytes -> option tal.
Variable dec_cert : bytes -> option cert.
Variable dec_roa : bytes -> option roa.
Variable dec_mft : bytes -> option mft.
Variable dec_crl : bytes -> option crl.
Variable hex_sha1 : bytes -> bytes.

Notation Inv := (Inv sig_ok).
Notation step := (step sig_ok crl_sig_ok dec_tal dec_cert dec_roa dec_mft dec_crl hex_sha1).
Notation run := (run sig_ok crl_sig_ok dec_tal dec_cert dec_roa dec_mft dec_crl hex_sha1).
Notation anchor := (given_as_anchor dec_cert).
Notation inv_run := (inv_run sig_ok crl_sig_ok dec_tal dec_cert dec_roa dec_mft dec_crl hex_sha1).
Notation inv_step := (inv_step sig_ok crl_sig_ok dec_tal dec_cert dec_roa dec_mft dec_crl hex_sha1).
Notation ext_step := (ext_step sig_ok crl_sig_ok dec_tal dec_cert dec_roa dec_mft dec_crl hex_sha1).

Lemma validate_cert_held : forall T c v, Inv T v -> validate_cert sig_ok c false v = VRet true ->
  exists pa pc, v_valid v (c_aki c) = Some pa /\ hobj (v_heap v) pa = Some (OCert pc) /\ held (v_heap v) c pa pc.
Proof.
  intros T c v I H. unfold validate_cert in H.
  destruct (negb (time_ok c (v_time v))); [discriminate|].
  destruct (v_valid v (c_aki c)) as [pa|] eqn:PV; [|discriminate]. vb H.
  destruct (deref_hobj _ _ _ E) as (HO & HP & _).
  destruct (r_obj y) as [pc| | | |]; try discriminate.
  exists pa, pc. split; auto. split; auto.
  destruct (negb (sig_ok pc c)); [discriminate|].
  destruct (kin (v_revoked v) (serial_key (c_aki c) (c_serial c))); [discriminate|].
  assert (G : forall g u, r_parent y = Some g -> v_valid v (c_aki pc) = Some u -> u = g).
  { intros g u E1 E2. rewrite E1 in HP. destruct (inv_link _ _ _ I _ _ _ _ PV HO HP) as (_ & O).
    apply (inv_valid _ _ _ I) in E2. congruence. }
  vb H. destruct y0 as [[vs inv] chk]. apply vgo_ret in E0. vb H. destruct y0 as [inv'|]; [|discriminate].
  destruct (validate_as_list (c_asns c) (c_asns pc)) as [[avs ainv] achk] eqn:EA.
  vb H. destruct y0 as [ainv'|]; [|discriminate].
  assert (inv' = [] /\ ainv' = []) as [-> ->] by (destruct inv', ainv'; inversion H; auto).
  destruct (ip_chain_ok _ _ _ _ _ _ _ E1) as (-> & IPS).
  destruct (as_chain_ok _ _ _ _ _ _ _ E2) as (-> & ASS).
  split.
  - exists vs, chk. split; auto. rewrite HP. destruct IPS as [X|[X|(u & cc & vs2 & c2 & X1 & X2 & X3)]]; auto.
    destruct (r_parent y) as [g|] eqn:RP; [|auto]. right. right.
    rewrite (G g u eq_refl X1) in X2. exists g, cc, vs2, c2. auto.
  - exists avs, achk. split; auto. rewrite HP. destruct ASS as [X|[X|(u & cc & vs2 & c2 & X1 & X2 & X3)]]; auto.
    destruct (r_parent y) as [g|] eqn:RP; [|auto]. right. right.
    rewrite (G g u eq_refl X1) in X2. exists g, cc, vs2, c2. auto.
Qed.

Lemma held_ext : forall v v' c pa pc, ext v v' -> hobj (v_heap v) pa = Some (OCert pc) ->
  held (v_heap v) c pa pc -> held (v_heap v') c pa pc.
Proof.
  intros v v' c pa pc X HO ((vs & chk & E & H) & (avs & achk & AE & AH)).
  assert (P := ext_par _ _ X pa (hobj_lt _ _ _ HO)).
  split; [exists vs, chk; split; auto|exists avs, achk; split; auto]; rewrite P.
  - destruct H as [H|[H|(g & gc & v2 & c2 & H1 & H2 & H3)]]; auto. right. right. exists g, gc, v2, c2.
    split; auto. split; auto. now apply (ext_obj _ _ X).
  - destruct AH as [AH|[AH|(g & gc & v2 & c2 & H1 & H2 & H3)]]; auto. right. right. exists g, gc, v2, c2.
    split; auto. split; auto. now apply (ext_obj _ _ X).
Qed.

Definition claims_ok (T : cert -> Prop) (v : validator) : Prop :=
  forall k a c, v_valid v k = Some a -> hobj (v_heap v) a = Some (OCert c) ->
    T c \/ exists pa pc, hpar (v_heap v) a = Some pa /\ hobj (v_heap v) pa = Some (OCert pc) /\ held (v_heap v) c pa pc.

Lemma claims_step : forall T o v v', Inv T v -> (forall c, anchor [o] c -> T c) ->
  claims_ok T v -> step o v = VRet v' -> claims_ok T v'.
Proof.
  intros T o v v' I TR CL E k a c V H.
  assert (X := ext_step T _ _ _ I TR E).
  destruct (new_valid_step sig_ok crl_sig_ok dec_tal dec_cert dec_roa dec_mft dec_crl hex_sha1 T _ _ _ I E _ _ V)
      as [VO|(c' & [X1 X2 X3 X4 X5 X6 X7])].
  - destruct (inv_obj _ _ _ I _ _ (inv_valid _ _ _ I _ _ VO)) as (c2 & H2 & _).
    pose proof (ext_obj _ _ X _ _ H2) as H3. assert (c2 = c) by congruence. subst c2.
    destruct (CL _ _ _ VO H2) as [?|(pa & pc & P1 & P2 & P3)]; auto. right. exists pa, pc.
    split; [rewrite (ext_par _ _ X); auto; now apply hobj_lt in H2|].
    split; [now apply (ext_obj _ _ X)|]. eapply held_ext; eauto.
  - assert (c' = c) by congruence. subst c'. destruct X7 as [X7|X7]; [|auto]. right.
    destruct (validate_cert_held T _ _ I X7) as (pa & pc & P1 & P2 & P3). exists pa, pc.
    split; [rewrite X5; now apply (inv_valid _ _ _ I)|].
    split; [now apply (ext_obj _ _ X)|]. eapply held_ext; eauto.
Qed.

Lemma claims_run : forall T ops v v', Inv T v -> (forall c, anchor ops c -> T c) ->
  claims_ok T v -> run ops v = VRet v' -> claims_ok T v'.
Proof.
  intros T. induction ops as [|o ops IH]; intros v v' I TR IX R; cbn [Validator.run] in R.
  - inversion R; subst. exact IX.
  - vb R.
    assert (TR1 : forall c, anchor [o] c -> T c) by (intros; apply TR, anchor_cons; auto).
    destruct (inv_step T _ _ _ I TR1 E) as (I1 & _).
    assert (IX1 : claims_ok T y) by (apply (claims_step T _ _ _ I TR1 IX E)).
    apply (IH y v'); auto. intros; apply TR, anchor_tail; auto.
Qed.

(** ** From the lists to intervals *)
Lemma ip_first : forall l parent vs chk, Forall wf_claim l -> wf_list parent ->
  validate_ip_list l parent = Ret (vs, [], chk) ->
  forall i fam lo hi, In i l -> denotes i fam lo hi ->
    covered parent fam lo hi \/ (In i chk /\ inherited parent fam).
Proof.
  intros l parent vs chk WL WP H i fam lo hi IN D.
  destruct (validate_ip_list_spec l parent WP WL) as (v' & iv' & c' & E & S1 & S2 & _).
  rewrite H in E. inversion E; subst v' iv' c'.
  assert (P := validate_ip_list_perm _ _ _ _ _ H). cbn [app] in P.
  apply (Permutation_in _ P) in IN. apply in_app_or in IN. destruct IN as [IN|IN].
  - destruct (S1 _ IN) as [(f & IH)|(f & lo' & hi' & D' & C)].
    + destruct IH; inversion D.
    + destruct (denotes_fun _ _ _ _ _ _ _ D D') as (-> & -> & ->). auto.
  - right. split; auto. destruct (S2 _ IN) as (f & lo' & hi' & D' & C).
    destruct (denotes_fun _ _ _ _ _ _ _ D D') as (-> & -> & ->). auto.
Qed.
Lemma as_denotes_fun : forall i a b c d, as_denotes i a b -> as_denotes i c d -> a = c /\ b = d.
Proof. intros i a b c d H1 H2. destruct H1; inversion H2; auto. Qed.
Lemma as_first : forall l parent vs chk, Forall as_claim l ->
  validate_as_list l parent = (vs, [], chk) ->
  forall i lo hi, In i l -> as_denotes i lo hi ->
    as_covered parent lo hi \/ (In i chk /\ In ASNull parent).
Proof.
  intros l parent vs chk WL H i lo hi IN D.
  destruct (validate_as_list_spec l parent WL _ _ _ H) as (S1 & S2 & _).
  assert (P := validate_as_list_perm _ _ _ _ _ H). cbn [app] in P.
  apply (Permutation_in _ P) in IN. apply in_app_or in IN. destruct IN as [IN|IN].
  - destruct (S1 _ IN) as [->|(lo' & hi' & D' & C)]; [inversion D|].
    destruct (as_denotes_fun _ _ _ _ _ D D') as (-> & ->). auto.
  - right. destruct (S2 _ IN) as (X & _). auto.
Qed.

Lemma forall_chk : forall A (P : A -> Prop) (l v c : list A), Permutation l (v ++ [] ++ c) -> Forall P l -> Forall P c.
Proof.
  intros A P l v c PM F. apply Forall_forall. intros x H.
  apply (proj1 (Forall_forall P l) F). apply (Permutation_in _ (Permutation_sym PM)). apply in_or_app. auto.
Qed.

Lemma valid_issuer_claims : forall ops now v c, run ops (new_validator now) = VRet v ->
  valid_cert v c -> ~ anchor ops c ->
  exists pc, valid_cert v pc /\ c_aki c = c_ski pc /\
    exists pa, v_valid v (c_ski pc) = Some pa /\ hobj (v_heap v) pa = Some (OCert pc) /\
      held (v_heap v) c pa pc /\
      (hpar (v_heap v) pa = None -> anchor ops pc) /\
      (forall g gc, hpar (v_heap v) pa = Some g -> hobj (v_heap v) g = Some (OCert gc) ->
        known_cert v gc /\ c_aki pc = c_ski gc).
Proof.
  intros ops now v c R (a & V & C) NA. apply hobj_cert_at in C.
  destruct (inv_run _ _ _ R) as (I & _).
  assert (CL : claims_ok (anchor ops) v).
  { apply (claims_run (anchor ops) ops (new_validator now) v); auto; [apply inv_new|].
    unfold claims_ok. cbn. discriminate. }
  destruct (CL _ _ _ V C) as [X|(pa & pc & P1 & P2 & P3)]; [contradiction|].
  destruct (inv_chain _ _ _ I _ _ _ V C) as (_ & [X|(pa' & pc' & Q1 & Q2 & Q3 & Q4)]); [contradiction|].
  assert (pa' = pa) by congruence. subst pa'. assert (pc' = pc) by congruence. subst pc'.
  destruct (inv_obj _ _ _ I _ _ (inv_valid _ _ _ I _ _ Q1)) as (pc2 & Z1 & Z2). assert (pc2 = pc) by congruence. subst pc2.
  exists pc. split; [exists pa; split; [congruence|now apply hobj_cert_at]|]. split; auto.
  exists pa. split; [congruence|]. split; auto. split; auto. split.
  - intros HN. destruct (inv_chain _ _ _ I _ _ _ Q1 P2) as (_ & [X|(ga & gc & Y1 & Y2 & Y3 & Y4)]); auto. congruence.
  - intros g gc G1 G2. destruct (inv_link _ _ _ I _ _ _ _ Q1 P2 G1) as (_ & O).
    destruct (inv_obj _ _ _ I _ _ O) as (gc' & W1 & W2). assert (gc' = gc) by congruence. subst gc'.
    split; [|auto]. exists g. split; [congruence|now apply hobj_cert_at].
Qed.

Lemma ip_claims_held : forall ops now v c, run ops (new_validator now) = VRet v ->
  valid_cert v c -> ~ anchor ops c ->
  exists pc, valid_cert v pc /\ c_aki c = c_ski pc /\
    (Forall wf_claim (c_ips c) -> wf_list (c_ips pc) ->
     forall i fam lo hi, In i (c_ips c) -> denotes i fam lo hi ->
       covered (c_ips pc) fam lo hi \/
       inherited (c_ips pc) fam /\
       (anchor ops pc \/
        exists gc, known_cert v gc /\ c_aki pc = c_ski gc /\
          (wf_list (c_ips gc) -> covered (c_ips gc) fam lo hi \/ inherited (c_ips gc) fam))).
Proof.
  intros ops now v c R V NA.
  destruct (valid_issuer_claims ops now v c R V NA) as (pc & VP & AK & pa & PV & PO & ((vs & chk & E & H) & _) & NR & GR).
  exists pc. split; auto. split; auto. intros WC WP i fam lo hi IN D.
  destruct (ip_first _ _ _ _ WC WP E _ _ _ _ IN D) as [X|[X1 X2]]; auto. right. split; auto.
  destruct H as [H|[H|(g & gc & vs2 & chk2 & H1 & H2 & H3)]].
  - subst chk. destruct X1.
  - left. auto.
  - right. destruct (GR _ _ H1 H2) as (G1 & G2). exists gc. split; auto. split; auto. intros WG.
    assert (FC : Forall wf_claim chk) by (eapply forall_chk; [eapply validate_ip_list_perm; exact E|exact WC]).
    destruct (ip_first _ _ _ _ FC WG H3 _ _ _ _ X1 D) as [Y|[_ Y]]; auto.
Qed.

Lemma as_claims_held : forall ops now v c, run ops (new_validator now) = VRet v ->
  valid_cert v c -> ~ anchor ops c ->
  exists pc, valid_cert v pc /\ c_aki c = c_ski pc /\
    (Forall as_claim (c_asns c) ->
     forall i lo hi, In i (c_asns c) -> as_denotes i lo hi ->
       as_covered (c_asns pc) lo hi \/
       In ASNull (c_asns pc) /\
       (anchor ops pc \/
        exists gc, known_cert v gc /\ c_aki pc = c_ski gc /\
          (as_covered (c_asns gc) lo hi \/ In ASNull (c_asns gc)))).
Proof.
  intros ops now v c R V NA.
  destruct (valid_issuer_claims ops now v c R V NA) as (pc & VP & AK & pa & PV & PO & (_ & (vs & chk & E & H)) & NR & GR).
  exists pc. split; auto. split; auto. intros WC i lo hi IN D.
  destruct (as_first _ _ _ _ WC E _ _ _ IN D) as [X|[X1 X2]]; auto. right. split; auto.
  destruct H as [H|[H|(g & gc & vs2 & chk2 & H1 & H2 & H3)]].
  - subst chk. destruct X1.
  - left. auto.
  - right. destruct (GR _ _ H1 H2) as (G1 & G2). exists gc. split; auto. split; auto.
    assert (FC : Forall as_claim chk) by (eapply forall_chk; [eapply validate_as_list_perm; exact E|exact WC]).
    destruct (as_first _ _ _ _ FC H3 _ _ _ X1 D) as [Y|[_ Y]]; auto.
Qed.
End Res.
