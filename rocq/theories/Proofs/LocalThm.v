(** The list made by localrpki. *)
From Coq Require Import List ZArith Lia Bool String.
From Verif.Model Require Import Base NetIP CertRes Roa Str Ber Tal Validator Explore NetText RrdpXml Output Octo Report Local.
From Verif.Spec Require Import Addr Resources Canon Trust Discovery CtSpec OutputSpec EndSpec LocalSpec.
From Verif.Proofs Require Import StrProofs NetIPProofs NetTextProofs CertProofs RoaProofs HeapProofs Invalidate BerProofs ValidatorInv
  ValidatorRun ValidatorMono ValidatorFacts ExportProofs ExploreFacts ExploreInv ExploreThm CtProofs ReportInv ReportThm LocalInv.
Import ListNotations.
Open Scope Z_scope.

Lemma gconcat_ret : forall A (l : list (go (list A))) L, gconcat l = Ret L <-> exists parts, L = concat parts /\ l = map Ret parts.
Proof.
  intros A l. induction l as [|x l IH]; intros L; cbn [gconcat].
  - split.
    + intros H. injection H as <-. exists []. auto.
    + intros (parts & -> & E). destruct parts; [reflexivity|discriminate].
  - split.
    + destruct x as [a|]; [|discriminate]. cbn [gbind]. destruct (gconcat l) as [b|]; [|discriminate]. cbn [gbind]. intros H. injection H as <-.
      destruct (proj1 (IH b) eq_refl) as (parts & -> & ->). exists (a :: parts). auto.
    + intros (parts & -> & E). destruct parts as [|p parts]; [discriminate|]. cbn [map] in E. injection E as -> ->. cbn [gbind].
      rewrite (proj2 (IH (concat parts))); [reflexivity|eauto].
Qed.

Lemma local_entries_lines : forall q a f asn l, path_of_resource q a = Some f -> local_entries q a asn l = Ret (map (line_for f asn) l).
Proof. intros q a f asn l H. induction l as [|e l IH]; cbn [local_entries map]; [reflexivity|]. rewrite H, IH. reflexivity. Qed.

Lemma valids_part : forall x es, plain_roa x -> valids x = Ret es -> part (entry_covered (roa_cert x)) (roa_entries x) es.
Proof.
  intros x es (W & NI & D) H. unfold valids in H.
  destruct (validate_roa_list (roa_entries x) (c_ips (roa_cert x))) as [[[v iv] c]|] eqn:E; [|discriminate]. cbn [gbind] in H. injection H as <-.
  revert v iv c E. induction (roa_entries x) as [|e l IH]; intros v iv c E; cbn [validate_roa_list] in E.
  - injection E as <- _ _. constructor.
  - destruct (D e (or_introl eq_refl)) as (fam & lo & hi & Hd & Hpb).
    destruct (entry_range _ _ _ _ Hd Hpb) as (mn & mx & E0 & P1 & P2 & L1 & L2 & V1 & V2).
    rewrite E0 in E. cbn [odefault] in E.
    destruct (is_ip_range_in_spec (c_ips (roa_cert x)) mn mx W P1 P2 ltac:(lia)) as (b & ck & E1 & S1 & S2 & S3 & S4).
    rewrite E1 in E. cbn [gbind] in E. rewrite L1, V1, V2 in *.
    destruct (validate_roa_list l (c_ips (roa_cert x))) as [[[v' iv'] c']|]; [|discriminate]. cbn [gbind app] in E.
    assert (IH' := IH (fun e I => D e (or_intror I)) _ _ _ eq_refl).
    destruct b.
    + injection E as <- <- <-. constructor; [|exact IH']. exists fam, lo, hi. split; [exact Hd|].
      destruct (S1 eq_refl) as (i & lo' & hi' & He & Hde & Q1 & Q2). exists i, lo', hi'. repeat split; auto; lia.
    + destruct ck.
      * exfalso. exact (NI fam (S2 eq_refl)).
      * injection E as <- <- <-. apply part_out; [|exact IH']. intros (fam' & lo' & hi' & Hd' & i & l2 & h2 & He & Hde & Q1 & Q2).
        destruct (S4 eq_refl eq_refl i He) as [_ S].
        destruct (denotes_fun _ _ _ _ _ _ _ Hd Hd') as (<- & <- & <-).
        apply (S l2 h2 Hde). destruct Hpb as [Hle _]. lia.
Qed.

Section Explored.
Variable sig_ok : cert -> cert -> bool.
Variable crl_sig_ok : cert -> crl -> bool.
Variable dec_tal : bytes -> option tal.
Variable dec_cert : bytes -> option cert.
Variable dec_roa : bytes -> option roa.
Variable dec_mft : bytes -> option mft.
Variable dec_crl : bytes -> option crl.
Variable hex_sha1 : bytes -> bytes.
Variable disk : bytes -> option bytes.
Variable synced : bytes -> bool.
Variable sha256 : bytes -> bytes.
Variable clock : nat -> Z * Z.
Variable strict_manifests : bool.
Variable strict_hash : bool.
Variable add_invalid : bool.
Notation explore_iter := (explore_iter sig_ok crl_sig_ok dec_tal dec_cert dec_roa dec_mft dec_crl hex_sha1 disk synced sha256 clock strict_manifests strict_hash add_invalid).

(** A locator explored at the time [now]. *)
Definition explored_local (now : Z) (init : list fdesc) (q : local) : Prop :=
  explores explore_iter (init_mgr now init) (lc_files q) (lc_mgr q) /\ listing (v_validroa (m_v (lc_mgr q))) (lc_roas q).

Section One.
Variables (now : Z) (init : list fdesc) (q : local).
Hypothesis E : explored_local now init q.
Let s := lc_mgr q.
Let P := lc_files q.

Lemma l_inv : exists T, Inv sig_ok T (m_v s).
Proof using E.
  destruct E as (X & _). destruct (explored_run _ _ _ _ _ _ _ _ _ _ _ _ _ _ _ _ _ _ _ X) as (ops & R & _).
  apply inv_run in R. destruct R as (I & _). eauto.
Qed.
Lemma ids_differ : forall f g, In f P -> In g P -> f_id f = f_id g -> f = g.
Proof using E.
  intros f g F G ID. destruct E as (X & _).
  destruct (minv_reach _ _ _ _ _ _ _ _ _ _ _ _ _ _ _ _ _ _ _ X) as (T & M).
  assert (IN := mi_in _ _ _ _ _ _ _ _ _ _ _ _ _ _ _ _ _ _ _ M).
  assert (F' : In f T) by (apply IN, in_or_app; now left). assert (G' : In g T) by (apply IN, in_or_app; now left).
  pose proof (minv_nth _ _ _ _ _ _ _ _ _ _ _ _ _ _ _ _ _ _ _ _ M F') as H1.
  pose proof (minv_nth _ _ _ _ _ _ _ _ _ _ _ _ _ _ _ _ _ _ _ _ M G') as H2. congruence.
Qed.

Lemma l_roa : forall k a, In (k, a) (lc_roas q) -> exists r x f, nth_error (v_heap (m_v s)) a = Some r /\ r_obj r = ORoa x /\
  c_ski (roa_cert x) = k /\ valid_roa (m_v s) x /\ valid_cert (m_v s) (roa_cert x) /\ read_from disk dec_roa P x f /\ path_of_resource q a = Some f.
Proof using E.
  intros k a I. destruct l_inv as (T & IV). assert (X := proj1 E). apply (proj2 (proj2 E)) in I.
  destruct (inv_vroa _ _ _ IV _ _ I) as (x & b & O & K & V & OC & _). unfold hobj in O, OC. fold s in I.
  destruct (nth_error (v_heap (m_v s)) a) as [r|] eqn:N; [|discriminate]. injection O as O.
  destruct (nth_error (v_heap (m_v s)) b) as [rb|] eqn:NB; [|discriminate]. injection OC as OC.
  pose proof (explored_res _ _ _ _ _ _ _ _ _ _ _ _ _ _ _ _ _ _ _ _ _ X N) as R. rewrite O in R. destruct R as (f & raw & d & F1 & F2 & F3 & F4).
  unfold res_of in F4. rewrite O in F4. destruct F4 as (F4 & F5).
  destruct (known_reach _ _ _ _ _ _ _ _ _ _ _ _ _ _ _ _ _ _ _ X) as (KA & KB).
  exists r, x, f. split; [reflexivity|]. split; [exact O|]. split; [exact K|].
  split; [exists a; rewrite K; split; [exact I|]; exists r; auto|].
  split; [exists b; rewrite K; split; [exact V|]; exists rb; auto|].
  split; [split; [exact F1|]; split; [exact F4|]; exists raw, d; auto|].
  destruct (KA _ _ I) as (g & y & (r' & N' & O' & F') & RG). fold s in N'. rewrite N in N'. injection N' as <-.
  assert (f = g) by congruence. subst g.
  unfold path_of_resource. fold s P.
  destruct (find _ (rev P)) as [g|] eqn:FD.
  - apply find_some in FD as (GP & GA). apply in_rev in GP.
    destruct (m_rop s (f_id g)) as [b'|] eqn:RB; [|discriminate]. apply Nat.eqb_eq in GA. subst b'.
    destruct (KB _ _ RB) as (_ & KB'). destruct (KB' (Some f) x) as (h & FH & ID); [exists r; auto|].
    injection FH as <-. f_equal. symmetry. apply ids_differ; assumption.
  - exfalso. pose proof (find_none _ _ FD f) as HN. cbv beta in HN. fold s in RG. rewrite RG, Nat.eqb_refl in HN.
    discriminate HN. apply -> in_rev. exact F1.
Qed.

Lemma local_tal_of : forall L, local_tal q = Ret L -> local_of disk dec_roa (fun x es => valids x = Ret es) P (m_v s) L.
Proof using E.
  intros L H. unfold local_tal in H. fold s in H. apply gconcat_ret in H as (parts & -> & H).
  assert (ND := proj1 (proj2 E)). fold s in ND.
  assert (ALL : forall x, valid_roa (m_v s) x -> exists a, In (c_ski (roa_cert x), a) (lc_roas q) /\ hobj (v_heap (m_v s)) a = Some (ORoa x)).
  { intros x (a & V & r & N & O). exists a. split; [apply (proj2 (proj2 E)); exact V|]. unfold hobj. fold s in N. rewrite N. cbn. congruence. }
  assert (G : exists rs : list (roa * pkifile), map (fun r => c_ski (roa_cert (fst r))) rs = map fst (lc_roas q) /\
    (forall k a x, In (k, a) (lc_roas q) -> hobj (v_heap (m_v s)) a = Some (ORoa x) -> exists f, In (x, f) rs) /\
    (forall x f, In (x, f) rs -> valid_roa (m_v s) x /\ read_from disk dec_roa P x f) /\
    Forall2 (fun r p => exists es, valids (fst r) = Ret es /\ p = map (line_for (snd r) (roa_asn (fst r))) es) rs parts).
  { clear ALL ND. pose proof l_roa as LR. revert parts H LR. induction (lc_roas q) as [|(k & a) l IH]; intros parts H LR.
    - destruct parts; [|discriminate]. exists []. split; [reflexivity|]. split; [intros ? ? ? []|]. split; [intros ? ? []|constructor].
    - destruct parts as [|p parts]; [discriminate|]. cbn [map snd] in H. injection H as H1 H2.
      destruct (IH parts H2) as (rs & R1 & R2 & R3 & R4); [intros k' a' I; apply LR; now right|].
      destruct (LR k a (or_introl eq_refl)) as (r & x & f & N & O & K & V & _ & RF & PO).
      rewrite N, O in H1. destruct (valids x) as [es|] eqn:VX; [|discriminate]. cbn [gbind] in H1.
      rewrite (local_entries_lines _ _ _ _ _ PO) in H1. injection H1 as <-.
      exists ((x, f) :: rs). split; [cbn [map fst]; congruence|]. split; [|split].
      + intros k' a' x' [I|I] HO.
        * injection I as <- <-. unfold hobj in HO. rewrite N in HO. cbn in HO. assert (x' = x) by congruence. subst. exists f. now left.
        * destruct (R2 _ _ _ I HO) as (f' & I'). exists f'. now right.
      + intros x' f' [I|I]; [injection I as <- <-; auto|auto].
      + constructor; [|exact R4]. exists es. auto. }
  destruct G as (rs & R1 & R2 & R3 & R4). exists rs. split; [rewrite R1; exact ND|]. split; [|split].
  - intros x. split.
    + intros V. destruct (ALL x V) as (a & I & O). eauto.
    + intros (f & I). apply (R3 _ _ I).
  - intros x f I. apply (R3 _ _ I).
  - exists parts. split; [reflexivity|exact R4].
Qed.

Lemma local_tal_returns : (forall c, valid_cert (m_v s) c -> decoded_cert c) -> exists L, local_tal q = Ret L.
Proof using E.
  intros D. unfold local_tal. fold s.
  assert (exists parts, map (fun ka => match nth_error (v_heap (m_v s)) (snd ka) with
    | Some r => match r_obj r with ORoa x => let! l := valids x in local_entries q (snd ka) (roa_asn x) l | _ => Panic end
    | None => Panic end) (lc_roas q) = map Ret parts) as (parts & HP).
  { pose proof l_roa as LR. induction (lc_roas q) as [|(k & a) l IH]; [exists []; reflexivity|].
    destruct IH as (parts & IH); [intros k' a' I; apply LR; now right|].
    destruct (LR k a (or_introl eq_refl)) as (r & x & f & N & O & K & V & VC & RF & PO). cbn [map snd]. rewrite IH, N, O.
    unfold valids. destruct (roa_list_no_panic (roa_entries x) (c_ips (roa_cert x)) (decoded_cert_elems _ (D _ VC))) as (v1 & v2 & v3 & ->).
    cbn [gbind]. rewrite (local_entries_lines _ _ _ _ _ PO). exists (map (line_for f (roa_asn x)) v1 :: parts). reflexivity. }
  exists (concat parts). apply gconcat_ret. eauto.
Qed.

(** At a time before that of every certificate nothing is valid. *)
Lemma local_before : (forall f x, read_from disk dec_roa P x f -> now < c_not_before (roa_cert x)) -> local_tal q = Ret [].
Proof using E.
  intros B. assert (X := proj1 E). unfold local_tal. pose proof l_roa as LR. destruct (lc_roas q) as [|(k & a) l]; [reflexivity|exfalso].
  destruct (LR k a (or_introl eq_refl)) as (r & x & f & N & O & K & V & (b & VB & rb & NB & OB) & RF & PO).
  destruct (explored_run _ _ _ _ _ _ _ _ _ _ _ _ _ _ _ _ _ _ _ X) as (ops & R & _). apply inv_run in R. destruct R as (I & TM).
  assert (HO : hobj (v_heap (m_v s)) b = Some (OCert (roa_cert x))) by (unfold hobj; rewrite NB; cbn; congruence).
  destruct (inv_chain _ _ _ I _ _ _ VB HO) as ((W & _) & _). rewrite TM in W. specialize (B _ _ RF). lia.
Qed.
End One.

(** All locators *)
Lemma local_list_parts : forall now inits qs L, Forall2 (explored_local now) inits qs -> local_list qs = Ret L ->
  exists parts, L = concat parts /\
    Forall2 (fun q l => local_of disk dec_roa (fun x es => valids x = Ret es) (lc_files q) (m_v (lc_mgr q)) l) qs parts.
Proof.
  intros now inits qs L F H. unfold local_list in H. apply gconcat_ret in H as (parts & -> & H). exists parts. split; [reflexivity|].
  revert parts H. induction F as [|i q inits qs E F IH]; intros parts H; destruct parts as [|p parts]; cbn [map] in *; try discriminate; constructor.
  - injection H as H1 H2. eapply local_tal_of; eauto.
  - injection H as H1 H2. apply IH; auto.
Qed.
Lemma local_list_returns : forall now inits qs, Forall2 (explored_local now) inits qs ->
  (forall q, In q qs -> forall c, valid_cert (m_v (lc_mgr q)) c -> decoded_cert c) -> exists L, local_list qs = Ret L.
Proof.
  intros now inits qs F D. unfold local_list. induction F as [|i q inits qs E F IH]; cbn [map gconcat]; [eauto|].
  destruct (local_tal_returns _ _ _ E) as (A & ->); [apply D; now left|]. destruct IH as (B & ->); [intros; apply (D q0); [now right|assumption]|].
  cbn [gbind]. eauto.
Qed.
Lemma local_list_before : forall now inits qs, Forall2 (explored_local now) inits qs ->
  (forall q f x, In q qs -> read_from disk dec_roa (lc_files q) x f -> now < c_not_before (roa_cert x)) -> local_list qs = Ret [].
Proof.
  intros now inits qs F D. unfold local_list. induction F as [|i q inits qs E F IH]; cbn [map gconcat]; [reflexivity|].
  rewrite (local_before _ _ _ E); [|intros f x; apply D; now left]. rewrite IH; [reflexivity|intros q' f x I; apply D; now right].
Qed.

Lemma local_plain : forall P v l, (forall x, valid_roa v x -> plain_roa x) ->
  local_of disk dec_roa (fun x es => valids x = Ret es) P v l ->
  local_of disk dec_roa (fun x es => part (entry_covered (roa_cert x)) (roa_entries x) es) P v l.
Proof.
  intros P v l PL (rs & ND & V & RF & parts & -> & F). exists rs. split; [exact ND|]. split; [exact V|]. split; [exact RF|].
  exists parts. split; [reflexivity|]. assert (V' : forall r, In r rs -> plain_roa (fst r)).
  { intros (x & f) I. apply PL, V. eauto. }
  clear ND V RF. induction F as [|r p rs parts (es & H & ->) F IH]; constructor.
  - exists es. split; [|reflexivity]. apply valids_part; [apply V'; now left|exact H].
  - apply IH. intros r' I. apply V'. now right.
Qed.
Lemma local_list_plain : forall now inits qs L, Forall2 (explored_local now) inits qs ->
  (forall q, In q qs -> forall x, valid_roa (m_v (lc_mgr q)) x -> plain_roa x) -> local_list qs = Ret L ->
  exists parts, L = concat parts /\
    Forall2 (fun q l => local_of disk dec_roa (fun x es => part (entry_covered (roa_cert x)) (roa_entries x) es) (lc_files q) (m_v (lc_mgr q)) l) qs parts.
Proof.
  intros now inits qs L F PL H. destruct (local_list_parts _ _ _ _ F H) as (parts & -> & G). exists parts. split; [reflexivity|].
  clear F H. induction G as [|q l qs parts H G IH]; constructor.
  - apply local_plain; [apply PL; now left|exact H].
  - apply IH. intros q' I. apply PL. now right.
Qed.

(** The same authorisations as in the list of octorpki. *)
Definition cut (r : local_roa) : bytes * Z * bytes := (lr_prefix r, lr_maxlen r mod 256, lr_asn r).
Lemma local_export : forall P v l ta, local_of disk dec_roa (fun x es => valids x = Ret es) P v l ->
  exists t L, lists_valid_roas v t /\ gconcat (map (export_roa ta) t) = Ret L /\ map vrp L = map cut l.
Proof.
  intros P v l ta (rs & ND & V & RF & parts & -> & F). exists (map fst rs).
  assert (G : exists L, gconcat (map (export_roa ta) (map fst rs)) = Ret L /\ map vrp L = map cut (concat parts)).
  { clear ND V RF. induction F as [|r p rs parts (es & H & ->) F IH]; cbn [map gconcat concat]; [eauto|].
    destruct IH as (L & -> & IH). unfold export_roa at 1. rewrite H. cbn [gbind]. eexists. split; [reflexivity|].
    rewrite !map_app, IH. f_equal. rewrite !map_map. reflexivity. }
  destruct G as (L & G1 & G2). exists L. split; [|auto]. intros x. rewrite V, in_map_iff. split.
  - intros ((y & f) & <- & I). exists f. exact I.
  - intros (f & I). exists (x, f). auto.
Qed.
End Explored.

(** ** The time of validation *)
Lemma time_unix_small : forall n, - 2 ^ 62 <= n <= 2 ^ 62 -> time_unix n = n.
Proof. intros n H. unfold time_unix, zero_time. rewrite Z.mod_small; lia. Qed.
Lemma valid_time_now : forall now rfc, valid_time now rfc (str "now"%string) = now.
Proof. reflexivity. Qed.
Lemma valid_time_number : forall now rfc n, 0 <= n <= 2 ^ 62 -> valid_time now rfc (dec n) = n /\ (0 < n -> valid_time now rfc (45 :: dec n) = - n).
Proof.
  intros now rfc n H. destruct (dec_digits n ltac:(lia)) as [D N]. pose proof (dec_value n ltac:(lia)) as V.
  assert (DB : forallb is_digit (dec n) = true) by (apply forallb_forall; apply Forall_forall; exact D).
  unfold valid_time, RrdpXml.parse_int64. destruct (dec n) as [|c r] eqn:DN; [congruence|].
  assert (DC : is_digit c = true) by (inversion D; assumption). unfold is_digit in DC. apply andb_true_iff in DC. rewrite !Z.leb_le in DC.
  assert (B1 : beq (c :: r) (str "now") = false).
  { destruct (beq (c :: r) (str "now")) eqn:B; [|reflexivity]. apply beq_eq in B. injection B as B _. lia. }
  assert (B2 : beq (45 :: c :: r) (str "now") = false) by reflexivity.
  rewrite B1, B2. destruct (Z.eqb_spec c 45); [lia|]. destruct (Z.eqb_spec c 43); [lia|]. rewrite Z.eqb_refl, DB, V.
  assert (Q1 : (- 2 ^ 63 <=? 1 * n) && (1 * n <? 2 ^ 63) = true) by (rewrite andb_true_iff, Z.leb_le, Z.ltb_lt; lia).
  assert (Q2 : (- 2 ^ 63 <=? -1 * n) && (-1 * n <? 2 ^ 63) = true) by (rewrite andb_true_iff, Z.leb_le, Z.ltb_lt; lia).
  rewrite Q1, Q2, !time_unix_small by lia. split; [lia|]. intros _. lia.
Qed.
Lemma valid_time_unreadable : forall now rfc s, s <> str "now"%string -> parse_int64 s = None -> rfc s = None -> valid_time now rfc s = zero_time.
Proof. intros now rfc s H1 H2 H3. unfold valid_time. rewrite H2, H3. destruct (beq s (str "now"%string)) eqn:E; [|reflexivity]. apply beq_eq in E. contradiction. Qed.
