(** Certificate transparency chains. *)
From Coq Require Import Lia.
From Verif.Model Require Import Base Roa Str Tal Validator NetText Explore Octo Ct.
From Verif.Spec Require Import Trust CtSpec.
From Verif.Proofs Require Import StrProofs HeapProofs ValidatorInv ValidatorRun.

Lemma hexd_inj : forall a b, hexd a = hexd b -> a = b.
Proof. intros a b. unfold hexd. destruct (Z.ltb_spec a 10), (Z.ltb_spec b 10); lia. Qed.
Lemma hexs_inj : forall a b, hexs a = hexs b -> a = b.
Proof.
  induction a as [|x a IH]; intros [|y b] E; cbn [hexs] in E; try discriminate; [reflexivity|].
  injection E as E1 E2 E3. apply hexd_inj in E1. apply hexd_inj in E2. rewrite (IH b E3). f_equal.
  rewrite (Z.div_mod x 16), (Z.div_mod y 16) by lia. congruence.
Qed.
Lemma hexs_nil : forall k, hexs k = [] <-> k = [].
Proof. intros [|x k]; split; try reflexivity; discriminate. Qed.

(** ** The two maps *)
Lemma ct_maps_spec : forall h l aki path, NoDup (map fst l) ->
  (forall k a, In (k, a) l -> exists r c, nth_error h a = Some r /\ r_obj r = OCert c /\ c_ski c = k) ->
  exists aki' path', ct_maps l h aki path = VRet (aki', path') /\
    (forall k a r c, In (k, a) l -> nth_error h a = Some r -> r_obj r = OCert c ->
       aki' (hexs k) = Some (hexs (c_aki c)) /\ path' (hexs k) = Some (r_file r)) /\
    (forall x, (forall k, In k (map fst l) -> x <> hexs k) -> aki' x = aki x /\ path' x = path x).
Proof.
  intros h. induction l as [|[k a] l IH]; intros aki path ND H.
  - exists aki, path. split; [reflexivity|]. split; [intros k a r c []|auto].
  - cbn [map fst] in ND. apply NoDup_cons_iff in ND. destruct ND as [NI ND].
    destruct (H k a (in_eq _ _)) as (r & c & N & O & K). cbn [ct_maps]. unfold deref. rewrite N. cbn [vbind]. rewrite O.
    destruct (IH (kset aki (hexs (c_ski c)) (hexs (c_aki c))) (kset path (hexs (c_ski c)) (r_file r)) ND)
      as (aki' & path' & E & S & U).
    { intros k' a' I. apply H. now right. }
    exists aki', path'. split; [exact E|]. split.
    + intros k' a' r' c' [I|I] N' O'.
      * injection I as <- <-. rewrite N in N'. injection N' as <-. rewrite O in O'. injection O' as <-.
        destruct (U (hexs k)) as [-> ->].
        { intros q Q E'. apply hexs_inj in E'. congruence. }
        rewrite K, !kset_eq. auto.
      * exact (S k' a' r' c' I N' O').
    + intros x X. destruct (U x) as [-> ->].
      { intros q Q. apply X. now right. }
      rewrite !kset_neq; auto; rewrite K; apply X; now left.
Qed.

(** What the maps say about the state. *)
Definition maps_ok (v : validator) (aki : kmap bytes) (path : kmap (option pkifile)) : Prop :=
  (forall c f, file_of v c f -> aki (hexs (c_ski c)) = Some (hexs (c_aki c)) /\ path (hexs (c_ski c)) = Some f) /\
  (forall x, (forall k, v_valid v k <> None -> x <> hexs k) -> aki x = None /\ path x = None).

Lemma maps_of_valid : forall sig_ok T v objs, Inv sig_ok T v -> listing (v_valid v) objs ->
  exists aki path, ct_maps objs (v_heap v) kempty kempty = VRet (aki, path) /\ maps_ok v aki path.
Proof.
  intros sig_ok T v objs IV [ND L].
  destruct (ct_maps_spec (v_heap v) objs kempty kempty ND) as (aki & path & E & S & U).
  { intros k a I. apply L in I. apply (inv_valid _ _ _ IV) in I. destruct (inv_obj _ _ _ IV _ _ I) as (c & O & K).
    unfold hobj in O. destruct (nth_error (v_heap v) a) as [r|]; [|discriminate]. injection O as O. exists r, c. auto. }
  exists aki, path. split; [exact E|]. split.
  - intros c f (a & r & V & N & O & <-). apply L in V. exact (S _ a r c V N O).
  - intros x X. apply U. intros k I. apply X. apply in_map_iff in I. destruct I as ([k' a] & <- & I).
    apply L in I. cbn [fst]. congruence.
Qed.

Lemma valid_file : forall sig_ok T v k a, Inv sig_ok T v -> v_valid v k = Some a -> exists c f, c_ski c = k /\ file_of v c f.
Proof.
  intros sig_ok T v k a IV V. destruct (inv_obj _ _ _ IV _ _ (inv_valid _ _ _ IV _ _ V)) as (c & O & K).
  unfold hobj in O. destruct (nth_error (v_heap v) a) as [r|] eqn:N; [|discriminate]. injection O as O.
  exists c, (r_file r). split; [assumption|]. exists a, r. rewrite K. auto.
Qed.
Lemma file_of_fun : forall v c c' f f', file_of v c f -> file_of v c' f' -> c_ski c = c_ski c' -> c = c' /\ f = f'.
Proof.
  intros v c c' f f' (a & r & V & N & O & <-) (a' & r' & V' & N' & O' & <-) K. rewrite K in V.
  rewrite V in V'. injection V' as <-. rewrite N in N'. injection N' as <-. rewrite O in O'. injection O' as <-. auto.
Qed.

(** ** The loop *)
Definition done_ok (done : kmap bool) (seen : list bytes) : Prop := forall k, kin done (hexs k) = true <-> In k seen.

Lemma done_set : forall done seen k, done_ok done seen -> done_ok (kset done (hexs k) true) (k :: seen).
Proof.
  intros done seen k D k'. unfold kin, kset. destruct (beq (hexs k') (hexs k)) eqn:E.
  - apply beq_eq in E. apply hexs_inj in E. split; [intros _; left; congruence|reflexivity].
  - assert (k' <> k) by (intros ->; rewrite beq_refl in E; discriminate). rewrite (D k'). split; [now right|].
    intros [->|I]; [congruence|assumption].
Qed.
Lemma done_perm : forall done a b, (forall k, In k a <-> In k b) -> done_ok done a -> done_ok done b.
Proof. intros done a b E D k. rewrite (D k). apply E. Qed.

Lemma loop_stops : forall n aki path done cur ok, cur = [] \/ ok = true -> ct_loop n aki path done cur ok = VRet [].
Proof. intros n aki path done cur ok H; destruct H as [H|H]; subst; destruct n; cbn [ct_loop]; rewrite ?beq_refl, ?Bool.orb_true_r; reflexivity. Qed.

Lemma loop_follows : forall sig_ok T v objs aki path, Inv sig_ok T v -> listing (v_valid v) objs -> maps_ok v aki path ->
  forall n seen c f done, file_of v c f -> done_ok done (c_ski c :: seen) -> NoDup (c_ski c :: seen) ->
  (forall k, In k (c_ski c :: seen) -> In k (map fst objs)) ->
  (length objs < n + length (c_ski c :: seen))%nat ->
  exists l, ct_loop n aki path done (hexs (c_aki c)) false = VRet l /\ follows v seen c (f :: l) /\
    (length (f :: l) + length seen <= S (length objs))%nat.
Proof.
  intros sig_ok T v objs aki path IV L M. induction n as [|n IH]; intros seen c f done F D ND IN FU.
  - exfalso. pose proof (NoDup_incl_length ND IN) as X. rewrite map_length in X. lia.
  - pose proof (NoDup_incl_length ND IN) as LE. rewrite map_length in LE.
    destruct (list_eq_dec Z.eq_dec (c_aki c) []) as [Z|NZ].
    + exists []. rewrite Z. split; [apply loop_stops; now left|]. split; [now apply fo_end|]. cbn [length] in *. lia.
    + cbn [ct_loop]. destruct (beq (hexs (c_aki c)) []) eqn:B.
      { apply beq_eq in B. apply (proj1 (hexs_nil _)) in B. contradiction. }
      cbn [orb]. destruct (v_valid v (c_aki c)) as [pa|] eqn:V.
      * destruct (valid_file _ _ _ _ _ IV V) as (p & g & K & G). destruct (proj1 M p g G) as [A P]. rewrite K in A, P.
        unfold aki_of at 1, path_of at 1. rewrite A, P.
        destruct (kin done (hexs (c_aki c))) eqn:S.
        -- rewrite loop_stops by now right. exists [g]. cbn [vbind]. split; [reflexivity|]. split.
           ++ apply (fo_again v seen c p f g); auto. rewrite K. now apply D.
           ++ cbn [length] in *. lia.
        -- assert (NI : ~ In (c_ski p) (c_ski c :: seen)).
           { rewrite K. intros I. apply D in I. congruence. }
           destruct (IH (c_ski c :: seen) p g (kset done (hexs (c_aki c)) true) G) as (l & E & FO & LL).
           ++ rewrite <- K. now apply done_set.
           ++ constructor; assumption.
           ++ intros k [<-|I]; [|now apply IN]. rewrite K. apply in_map_iff. exists (c_aki c, pa). split; [reflexivity|].
              now apply (proj2 L).
           ++ cbn [length] in *. lia.
           ++ rewrite E. cbn [vbind]. exists (g :: l). split; [reflexivity|]. split; [now apply (fo_link v seen c p)|].
              cbn [length] in *. lia.
      * destruct (proj2 M (hexs (c_aki c))) as [A P].
        { intros k H E. apply hexs_inj in E. congruence. }
        unfold aki_of at 1, path_of at 1. rewrite A, P. rewrite loop_stops by now left. cbn [vbind].
        exists [None]. split; [reflexivity|]. split; [now apply fo_unknown|]. cbn [length] in *. lia.
Qed.

Lemma chains_follow : forall sig_ok T v objs aki path, Inv sig_ok T v -> listing (v_valid v) objs -> maps_ok v aki path ->
  forall order, (forall k x, In (k, x) order -> aki k = Some x) ->
  exists ls, ct_chains aki path (2 + length objs) order = VRet ls /\
    Forall2 (fun kx l => exists c, hexs (c_ski c) = fst kx /\ valid_cert v c /\ follows v [] c l /\ (length l <= S (length objs))%nat) order ls.
Proof.
  intros sig_ok T v objs aki path IV L M. induction order as [|[k x] order IH]; intros O.
  - exists []. split; [reflexivity|constructor].
  - destruct IH as (ls & E & F); [intros k' x' I; apply O; now right|].
    assert (X : exists k', v_valid v k' <> None /\ k = hexs k').
    { destruct (in_dec (list_eq_dec Z.eq_dec) k (map (fun e => hexs (fst e)) objs)) as [I|NI].
      - apply in_map_iff in I. destruct I as ([k' a] & <- & I). exists k'. apply (proj2 L) in I. split; [congruence|reflexivity].
      - exfalso. destruct (proj2 M k) as [A _].
        + intros k' V ->. apply NI. apply in_map_iff. destruct (v_valid v k') as [a|] eqn:Va; [|congruence].
          exists (k', a). split; [reflexivity|]. now apply (proj2 L).
        + rewrite (O k x (in_eq _ _)) in A. discriminate. }
    destruct X as (k' & V & ->). destruct (v_valid v k') as [a|] eqn:Va; [|congruence].
    destruct (valid_file _ _ _ _ _ IV Va) as (c & f & K & G). destruct (proj1 M c f G) as [A P]. rewrite K in A, P.
    assert (x = hexs (c_aki c)) as -> by (rewrite (O _ _ (in_eq _ _)) in A; congruence).
    destruct (loop_follows _ _ _ _ _ _ IV L M (2 + length objs) [] c f (kset kempty (hexs k') true) G) as (l & E2 & F2 & LL).
    + intros q. rewrite K. unfold kin, kset, kempty. destruct (beq (hexs q) (hexs k')) eqn:B.
      * apply beq_eq in B. apply hexs_inj in B. subst. split; [intros _; now left|reflexivity].
      * split; [discriminate|]. intros [<-|[]]. rewrite beq_refl in B. discriminate.
    + constructor; [intros []|constructor].
    + intros q [<-|[]]. rewrite K. apply in_map_iff. exists (k', a). split; [reflexivity|]. now apply (proj2 L).
    + cbn [length]. lia.
    + cbn [ct_chains]. rewrite E2. cbn [vbind]. rewrite E. cbn [vbind]. eexists. split; [reflexivity|].
      constructor; [|assumption]. exists c. cbn [fst]. split; [congruence|]. split.
      * destruct G as (a' & r & G1 & G2 & G3 & _). exists a'. split; [assumption|]. exists r. auto.
      * unfold path_of. rewrite P. split; [assumption|]. cbn [length] in *. lia.
Qed.

(** Following ends at a trust anchor. *)
Lemma follows_to_anchor : forall sig_ok (T : cert -> Prop) v, Inv sig_ok T v -> rfc_key_ids T v ->
  forall seen c l, follows v seen c l -> forall a, v_valid v (c_ski c) = Some a ->
  (forall k b, In k seen -> v_valid v k = Some b -> (a < b)%nat) ->
  to_anchor sig_ok T _ (file_of v) c l.
Proof.
  intros sig_ok T v IV [NE AN]. 
  assert (VC : forall c f, file_of v c f -> valid_cert v c).
  { intros c f (a & r & G1 & G2 & G3 & _). exists a. split; [assumption|]. exists r. auto. }
  assert (CH : forall c f a, file_of v c f -> v_valid v (c_ski c) = Some a ->
    (T c /\ (c_aki c = [] \/ c_aki c = c_ski c)) \/
    exists pa pc g, v_valid v (c_aki c) = Some pa /\ c_ski pc = c_aki c /\ file_of v pc g /\ sig_ok pc c = true /\ (pa < a)%nat).
  { intros c f a F V. pose proof (VC _ _ F) as VV. destruct F as (a' & r & V' & N & O & _). rewrite V in V'. injection V' as <-.
    assert (HO : hobj (v_heap v) a = Some (OCert c)) by (unfold hobj; rewrite N; cbn; now rewrite O).
    destruct (inv_chain _ _ _ IV _ _ _ V HO) as (_ & [TC|(pa & pc & V1 & O1 & S1 & P1)]).
    - left. split; [assumption|]. apply AN; assumption.
    - right. unfold hobj in O1. destruct (nth_error (v_heap v) pa) as [pr|] eqn:NP; [|discriminate]. injection O1 as O1.
      destruct (inv_obj _ _ _ IV _ _ (inv_valid _ _ _ IV _ _ V1)) as (pc' & O2 & K2). unfold hobj in O2. rewrite NP in O2.
      cbn in O2. rewrite O1 in O2. injection O2 as <-.
      exists pa, pc, (r_file pr). split; [assumption|]. split; [assumption|]. split.
      + exists pa, pr. rewrite K2. auto.
      + split; [assumption|]. exact (inv_par _ _ _ IV _ _ P1). }
  intros seen c l F. induction F as [seen c f F Z|seen c f F NZ U|seen c p f g F NZ K G I|seen c p f l F NZ K NI F2 IH]; intros a V SE.
  - destruct (CH _ _ _ F V) as [[TC _]|(pa & pc & g & V1 & K & G & _)]; [now apply ta_anchor|].
    exfalso. apply (NE pc (VC _ _ G)). congruence.
  - exfalso. destruct (CH _ _ _ F V) as [[TC [Z|Z]]|(pa & pc & g & V1 & _)]; congruence.
  - destruct (CH _ _ _ F V) as [[TC [Z|Z]]|(pa & pc & g' & V1 & K1 & G1 & S1 & LT)]; [congruence| |].
    + destruct (file_of_fun _ _ _ _ _ F G ltac:(congruence)) as [<- <-]. now apply ta_self.
    + exfalso. destruct I as [I|I].
      * rewrite K, <- I in V1. assert (pa = a) by congruence. lia.
      * rewrite K in V1. specialize (SE _ _ I V1). lia.
  - destruct (CH _ _ _ F V) as [[TC [Z|Z]]|(pa & pc & g' & V1 & K1 & G1 & S1 & LT)]; [congruence| |].
    + exfalso. apply NI. left. congruence.
    + assert (PF : exists g, file_of v p g).
      { inversion F2; subst; eauto. }
      destruct PF as (g & G). destruct (file_of_fun _ _ _ _ _ G1 G ltac:(congruence)) as [<- <-].
      apply (ta_link sig_ok T _ (file_of v) c pc); auto. apply (IH pa); [congruence|].
      intros k b [<-|I] B; [|specialize (SE _ _ I B); lia]. assert (b = a) by congruence. lia.
Qed.

(** ** Files of certificates *)
Section Files.
Variable sig_ok : cert -> cert -> bool.
Variable crl_sig_ok : cert -> crl -> bool.
Variable dec_tal : bytes -> option tal.
Variable dec_cert : bytes -> option cert.
Variable dec_roa : bytes -> option roa.
Variable dec_mft : bytes -> option mft.
Variable dec_crl : bytes -> option crl.
Variable hex_sha1 : bytes -> bytes.
Notation step := (step sig_ok crl_sig_ok dec_tal dec_cert dec_roa dec_mft dec_crl hex_sha1).
Notation run := (run sig_ok crl_sig_ok dec_tal dec_cert dec_roa dec_mft dec_crl hex_sha1).
Notation add_resource := (add_resource sig_ok crl_sig_ok dec_tal dec_cert dec_roa dec_mft dec_crl hex_sha1).
Notation brings := (brings dec_cert dec_roa dec_mft).
Notation anchor := (given_as_anchor dec_cert).

Definition from_file (ops : list op) (r : resource) : Prop :=
  match r_obj r with
  | OCert c => exists f d, In (DoResource f d) ops /\ r_file r = Some f /\ brings f d c
  | _ => True
  end.
Definition from_files (ops : list op) (h : list resource) : Prop :=
  forall a r, nth_error h a = Some r -> from_file ops r.

Lemma nth_app1 : forall (h : list resource) r a x, nth_error (h ++ [r]) a = Some x ->
  nth_error h a = Some x \/ (a = length h /\ x = r).
Proof.
  intros h r a x H. destruct (Nat.lt_ge_cases a (length h)) as [L|L].
  - left. now rewrite nth_error_app1 in H by lia.
  - right. rewrite nth_error_app2 in H by lia. destruct (a - length h)%nat as [|n] eqn:E; cbn in H.
    + injection H as ->. split; [lia|reflexivity].
    + now destruct n.
Qed.
Lemma nth_upd : forall h p g a x, nth_error (heap_upd h p g) a = Some x ->
  (a <> p /\ nth_error h a = Some x) \/ (a = p /\ exists r, nth_error h a = Some r /\ x = g r).
Proof.
  intros h p g a x H. rewrite nth_heap_upd in H. destruct (Nat.eqb_spec a p); [right|left; auto].
  split; [assumption|]. destruct (nth_error h a) as [r|]; [|discriminate]. injection H as <-. eauto.
Qed.

Lemma from_alloc : forall ops h r, from_files ops h -> from_file ops r -> from_files ops (h ++ [r]).
Proof. intros ops h r H R a x N. apply nth_app1 in N. destruct N as [N|[_ ->]]; eauto. Qed.
Lemma from_upd : forall ops h a g, (forall r, nth_error h a = Some r -> from_file ops r -> from_file ops (g r)) ->
  from_files ops h -> from_files ops (heap_upd h a g).
Proof. intros ops h a g G H x r N. apply nth_upd in N. destruct N as [[_ N]|[-> (y & N & ->)]]; eauto. Qed.
Lemma from_child : forall ops h a b, from_files ops h -> from_files ops (heap_upd h a (with_child b)).
Proof. intros ops h a b H. apply from_upd; auto. Qed.

Lemma add_cert_files : forall ops c tr v v' valid ps a err, from_files ops (v_heap v) ->
  add_cert sig_ok c tr v = VRet (v', (valid, ps, a, err)) ->
  (a < length (v_heap v'))%nat /\
  forall x r, nth_error (v_heap v') x = Some r -> (x = a /\ r_obj r = OCert c) \/ (x <> a /\ from_file ops r).
Proof.
  intros ops c tr v v' valid ps a err H E. destruct (add_cert_cases _ _ _ _ _ _ _ _ _ E) as (-> & C).
  assert (A : forall par x r, nth_error (v_heap v ++ [new_res TUnknown par None (OCert c)]) x = Some r ->
    (x = length (v_heap v) /\ r_obj r = OCert c) \/ (x <> length (v_heap v) /\ from_file ops r)).
  { intros par x r N. apply nth_app1 in N. destruct N as [N|[-> ->]]; [|left; auto]. right. split; [|eauto].
    assert (x < length (v_heap v))%nat by (apply nth_error_Some; congruence). lia. }
  assert (B : forall p par x r, nth_error (heap_upd (v_heap v ++ [new_res TUnknown par None (OCert c)]) p (with_child (length (v_heap v)))) x = Some r ->
    (x = length (v_heap v) /\ r_obj r = OCert c) \/ (x <> length (v_heap v) /\ from_file ops r)).
  { intros p par x r N. apply nth_upd in N. destruct N as [[_ N]|[-> (y & N & ->)]]; [eauto|].
    destruct (A _ _ _ N) as [[? ?]|[? ?]]; [left|right]; auto. }
  destruct C as [(_ & _ & _ & _ & ->)|(_ & _ & ok & _ & _ & _ & ->)].
  - split; [cbn; rewrite app_length; cbn; lia|]. intros x r N. cbn in N. eauto.
  - unfold store_cert. split.
    + destruct (v_objects v (c_aki c)); destruct valid; cbn; rewrite ?length_heap_upd, app_length; cbn; lia.
    + intros x r N. destruct (v_objects v (c_aki c)) as [p|]; destruct valid; cbn in N; eauto.
Qed.

Lemma invalidate_heap : forall k v v', invalidate k v = VRet v' -> v_heap v' = v_heap v.
Proof. intros k v v' H. apply same_base_invalidate in H. apply H. Qed.
Lemma revoke_loop_heap : forall aki l v v', revoke_loop aki l v = VRet v' -> v_heap v' = v_heap v.
Proof.
  induction l as [|s l IH]; intros v v' H; [cbn in H; congruence|]. rewrite revoke_loop_cons in H.
  destruct (revoke_one aki s v) as [v1| |] eqn:E; cbn [vbind] in H; try discriminate.
  rewrite (IH _ _ H). cbn. unfold revoke_one in E. destruct (v_serial v (serial_key aki s)); [|congruence].
  destruct (deref (v_heap v) a) as [r| |]; cbn [vbind] in E; try discriminate. destruct (r_obj r); try discriminate.
  destruct (c_serial c =? s); [|congruence]. exact (invalidate_heap _ _ _ E).
Qed.

Lemma add_resource_files : forall ops f d v v' res, In (DoResource f d) ops -> from_files ops (v_heap v) ->
  add_resource f d v = VRet (v', res) -> from_files ops (v_heap v').
Proof.
  intros ops f d v v' res I H E. unfold Validator.add_resource in E.
  destruct (f_type f) eqn:FT; try (injection E as <- <-; assumption).
  - destruct (dec_cert d) as [c|] eqn:DC; [|injection E as <- <-; assumption].
    destruct (check_tal f c v) as [ov| |] eqn:CT; cbn [vbind] in E; try discriminate.
    destruct ov as [v1|]; [|injection E as <- <-; assumption].
    assert (H1 : from_files ops (v_heap v1)).
    { unfold check_tal in CT. destruct (f_parent f) as [p|]; [|injection CT as <-; assumption].
      destruct (is_tal (f_type p)); [|injection CT as <-; assumption].
      destruct (v_tals v (f_path f)) as [a|]; [|injection CT as <-; assumption].
      destruct (deref (v_heap v) a) as [r| |]; cbn [vbind] in CT; try discriminate. destruct (r_obj r); try discriminate.
      destruct (vgo _) as [ok| |]; cbn [vbind] in CT; try discriminate. destruct ok; [|discriminate]. injection CT as <-.
      cbn. apply from_upd; auto. }
    destruct (add_cert sig_ok c (fd_trust (f_desc f)) v1) as [[v2 [[[va ps] a] er]]| |] eqn:AC; cbn [vbind] in E; try discriminate.
    injection E as <- <-. destruct (add_cert_files _ _ _ _ _ _ _ _ _ H1 AC) as [L K].
    cbn. intros x r N. apply nth_upd in N. destruct N as [[NE N]|[-> (y & N & ->)]].
    + destruct (K _ _ N) as [[? _]|[_ ?]]; [contradiction|assumption].
    + destruct (K _ _ N) as [[_ O]|[? _]]; [|congruence]. unfold from_file. cbn. rewrite O. exists f, d.
      split; [assumption|]. split; [reflexivity|]. unfold CtSpec.brings. now rewrite FT.
  - destruct (dec_mft d) as [m|] eqn:DC; [|injection E as <- <-; assumption].
    unfold add_mft in E. destruct (extract_path_mft (mft_files m)) as [paths|]; cbn [vbind] in E.
    2:{ injection E as <- <-. assumption. }
    destruct (add_cert sig_ok (mft_cert m) false v) as [[v1 [[[va ps] a] er]]| |] eqn:AC; cbn [vbind] in E; try discriminate.
    destruct (add_cert_files _ _ _ _ _ _ _ _ _ H AC) as [L K].
    injection E as <- <-.
    assert (H2 : from_files ops (heap_upd (v_heap v1) a (fun x => with_type TMftCer (with_file (Some f) x)))).
    { intros x r N. apply nth_upd in N. destruct N as [[NE N]|[-> (y & N & ->)]].
      + destruct (K _ _ N) as [[? _]|[_ ?]]; [contradiction|assumption].
      + destruct (K _ _ N) as [[_ O]|[? _]]; [|congruence]. unfold from_file. cbn. rewrite O. exists f, d.
        split; [assumption|]. split; [reflexivity|]. unfold CtSpec.brings. rewrite FT. eauto. }
    destruct (va && mft_inner m); cbn; (apply from_upd; [|apply from_child, from_alloc; [exact H2|exact Logic.I]]);
      intros r N; apply nth_upd in N; destruct N as [[_ N]|[_ (y & N & ->)]]; apply nth_app1 in N;
      (destruct N as [N|[_ ->]]; [|exact (fun _ => Logic.I)]); exfalso;
      assert (length (v_heap (upd a (fun x => with_type TMftCer (with_file (Some f) x)) v1)) < length (heap_upd (v_heap v1) a (fun x => with_type TMftCer (with_file (Some f) x))))%nat
        by (apply nth_error_Some; cbn in *; congruence); cbn in *; lia.
  - destruct (dec_roa d) as [m|] eqn:DC; [|injection E as <- <-; assumption].
    unfold add_roa in E.
    destruct (add_cert sig_ok (roa_cert m) false v) as [[v1 [[[va ps] a] er]]| |] eqn:AC; cbn [vbind] in E; try discriminate.
    destruct (add_cert_files _ _ _ _ _ _ _ _ _ H AC) as [L K].
    injection E as <- <-.
    assert (H2 : from_files ops (heap_upd (v_heap v1) a (fun x => with_type TRoaCer (with_file (Some f) x)))).
    { intros x r N. apply nth_upd in N. destruct N as [[NE N]|[-> (y & N & ->)]].
      + destruct (K _ _ N) as [[? _]|[_ ?]]; [contradiction|assumption].
      + destruct (K _ _ N) as [[_ O]|[? _]]; [|congruence]. unfold from_file. cbn. rewrite O. exists f, d.
        split; [assumption|]. split; [reflexivity|]. unfold CtSpec.brings. rewrite FT. eauto. }
    destruct (va && validate_entries (roa_entries m) && roa_inner m); cbn; (apply from_upd; [|apply from_child, from_alloc; [exact H2|exact Logic.I]]);
      intros r N; apply nth_upd in N; destruct N as [[_ N]|[_ (y & N & ->)]]; apply nth_app1 in N;
      (destruct N as [N|[_ ->]]; [|exact (fun _ => Logic.I)]); exfalso;
      assert (length (v_heap (upd a (fun x => with_type TRoaCer (with_file (Some f) x)) v1)) < length (heap_upd (v_heap v1) a (fun x => with_type TRoaCer (with_file (Some f) x))))%nat
        by (apply nth_error_Some; cbn in *; congruence); cbn in *; lia.
  - destruct (dec_crl d) as [l|]; [|injection E as <- <-; assumption].
    destruct (add_crl crl_sig_ok l v) as [[v1 [va a]]| |] eqn:AC; cbn [vbind] in E; try discriminate.
    destruct (add_crl_cases _ _ _ _ _ _ AC) as (-> & C).
    assert (H1 : from_files ops (v_heap v1) /\ forall r, nth_error (v_heap v1) (length (v_heap v)) = Some r -> exists l, r_obj r = OCrl l).
    { assert (A : from_files ops (v_heap v ++ [new_res TCrl (v_objects v (crl_aki (crl_exts l) [])) None (OCrl l)])).
      { apply from_alloc; [assumption|exact Logic.I]. }
      assert (B : forall r, nth_error (v_heap v ++ [new_res TCrl (v_objects v (crl_aki (crl_exts l) [])) None (OCrl l)]) (length (v_heap v)) = Some r ->
        exists l, r_obj r = OCrl l).
      { intros r N. rewrite nth_error_app2, Nat.sub_diag in N by lia. injection N as <-. exists l. reflexivity. }
      destruct C as [(_ & ->)|(_ & p & pc & v3 & _ & _ & _ & _ & R & ->)].
      - cbn. split; assumption.
      - apply revoke_loop_heap in R. cbn in R. cbn. rewrite R. split; [now apply from_child|].
        intros r N. apply nth_upd in N. destruct N as [[_ N]|[_ (y & N & ->)]]; [eauto|]. destruct (B _ N) as (l' & O). exists l'. exact O. }
    destruct H1 as [H1 H2].
    destruct (grandparent_path f) as [want| |]; cbn [vbind] in E; try discriminate.
    destruct (parent_file_path v1 (length (v_heap v))) as [have| |]; cbn [vbind] in E; try discriminate.
    destruct (beq want have); injection E as <- <-; [|assumption].
    cbn. apply from_upd; [|assumption]. intros r N _. destruct (H2 _ N) as (l' & O). unfold from_file. cbn. now rewrite O.
  - destruct (dec_tal d) as [t|]; [|injection E as <- <-; assumption]. cbn in E. injection E as <- <-.
    cbn. apply from_upd; [|apply from_alloc; [assumption|exact Logic.I]].
    intros r N _. rewrite nth_error_app2, Nat.sub_diag in N by lia. injection N as <-. exact Logic.I.
Qed.

Lemma run_files : forall all ops v v', Forall reads_files ops -> (forall o, In o ops -> In o all) ->
  from_files all (v_heap v) -> run ops v = VRet v' -> from_files all (v_heap v').
Proof.
  intros all. induction ops as [|o ops IH]; intros v v' F I H E; cbn [Validator.run] in E.
  - injection E as <-. assumption.
  - apply Forall_cons_iff in F. destruct F as [Fo F].
    destruct (step o v) as [v1| |] eqn:S; cbn [vbind] in E; try discriminate.
    apply (IH v1 v' F); auto; [intros x X; apply I; now right|].
    destruct o; try destruct Fo; cbn [Validator.step] in S.
    + apply vfst_ret in S. destruct S as (res & S). eapply add_resource_files; eauto. apply I. now left.
    + now rewrite (invalidate_heap _ _ _ S).
Qed.

(** ** The whole of it *)
Lemma ct_follows : forall ops now v objs, run ops (new_validator now) = VRet v -> listing (v_valid v) objs ->
  exists aki path, ct_maps objs (v_heap v) kempty kempty = VRet (aki, path) /\
    forall order, listing aki order ->
    (forall c, valid_cert v c -> In (hexs (c_ski c), hexs (c_aki c)) order) /\
    exists ls, ct objs order v = VRet ls /\
      Forall2 (fun k l => exists c, hexs (c_ski c) = fst k /\ valid_cert v c /\ follows v [] c l /\
                 (length l <= S (length objs))%nat) order ls.
Proof.
  intros ops now v objs R L. pose proof (proj1 (inv_run _ _ _ _ _ _ _ _ _ _ _ R)) as IV.
  destruct (maps_of_valid _ _ _ _ IV L) as (aki & path & E & M). exists aki, path. split; [assumption|].
  intros order LO. split.
  - intros c (a & V & (r & N & O)). apply (proj2 LO). apply (proj1 M c (r_file r)). exists a, r. auto.
  - unfold ct. rewrite E. cbn [vbind]. apply (chains_follow _ _ _ _ _ _ IV L M). intros k x I. now apply (proj2 LO).
Qed.

Lemma Forall2_impl : forall A B (P Q : A -> B -> Prop) l l', (forall a b, P a b -> Q a b) -> Forall2 P l l' -> Forall2 Q l l'.
Proof. intros A B P Q l l' H F. induction F; constructor; auto. Qed.

Lemma ct_anchored : forall ops now v objs, run ops (new_validator now) = VRet v -> listing (v_valid v) objs ->
  rfc_key_ids (anchor ops) v ->
  exists aki path, ct_maps objs (v_heap v) kempty kempty = VRet (aki, path) /\
    forall order, listing aki order ->
    (forall c, valid_cert v c -> In (hexs (c_ski c), hexs (c_aki c)) order) /\
    exists ls, ct objs order v = VRet ls /\
      Forall2 (fun k l => exists c, hexs (c_ski c) = fst k /\ valid_cert v c /\
                 to_anchor sig_ok (anchor ops) _ (file_of v) c l) order ls.
Proof.
  intros ops now v objs R L K. destruct (ct_follows _ _ _ _ R L) as (aki & path & E & H).
  exists aki, path. split; [assumption|]. intros order LO. destruct (H order LO) as (H1 & ls & E2 & F).
  split; [assumption|]. exists ls. split; [assumption|]. eapply Forall2_impl; [|exact F].
  intros k l (c & C1 & C2 & C3 & _). exists c. split; [assumption|]. split; [assumption|].
  destruct C2 as (a & V & _).
  exact (follows_to_anchor _ _ _ (proj1 (inv_run _ _ _ _ _ _ _ _ _ _ _ R)) K [] c l C3 a V ltac:(intros ? ? [])).
Qed.

Section Send.
Variable disk : bytes -> option bytes.
Variable synced : bytes -> bool.
Variable sha256 : bytes -> bytes.
Variable cms_certs : bytes -> option bytes.
Notation ct_entry := (ct_entry disk synced sha256 cms_certs).
Notation ct_request := (ct_request disk synced sha256 cms_certs).
Notation ct_send := (ct_send disk synced sha256 cms_certs).
Notation encoded := (encoded dec_cert dec_roa dec_mft cms_certs).

Variable ops : list op.
Hypothesis unchanged : forall f d, In (DoResource f d) ops -> exists h, get_file disk synced sha256 f = VRet (SData d h).
Hypothesis cms_roa : forall d x, dec_roa d = Some x -> cms_certs d <> None.
Hypothesis cms_mft : forall d x, dec_mft d = Some x -> cms_certs d <> None.

Lemma entry_encoded : forall v c f, from_files ops (v_heap v) -> file_of v c f ->
  exists b, ct_entry f = VRet [b] /\ encoded ops c b.
Proof.
  intros v c f H (a & r & _ & N & O & <-). specialize (H _ _ N). unfold from_file in H. rewrite O in H.
  destruct H as (f & d & I & F & B). rewrite F. destruct (unchanged f d I) as (h & G). cbn [Ct.ct_entry]. rewrite G.
  cbn [vbind]. unfold CtSpec.encoded. pose proof B as B'. unfold CtSpec.brings in B. destruct (f_type f) eqn:FT; try destruct B.
  - exists d. split; [reflexivity|]. exists f, d. rewrite FT. auto.
  - destruct (cms_certs d) as [b|] eqn:C; [|exfalso; eapply cms_mft; intuition eauto].
    exists b. split; [reflexivity|]. exists f, d. rewrite FT. auto.
  - destruct (cms_certs d) as [b|] eqn:C; [|exfalso; eapply cms_roa; intuition eauto].
    exists b. split; [reflexivity|]. exists f, d. rewrite FT. auto.
Qed.

Lemma request_encoded : forall v T, from_files ops (v_heap v) -> forall c l, to_anchor sig_ok T _ (file_of v) c l ->
  exists m, ct_request l = VRet m /\ to_anchor sig_ok T _ (encoded ops) c m.
Proof.
  intros v T H c l A. induction A as [c f F TC Z|c f F TC Z|c p f l F K S A IH];
    destruct (entry_encoded _ _ _ H F) as (b & E & B); cbn [Ct.ct_request]; rewrite !E; cbn [vbind].
  - exists [b]. split; [reflexivity|]. now apply ta_anchor.
  - exists [b; b]. split; [reflexivity|]. now apply ta_self.
  - destruct IH as (m & E2 & M). rewrite E2. cbn [vbind]. exists (b :: m). split; [reflexivity|]. now apply (ta_link _ _ _ _ c p).
Qed.

Lemma ct_sent : forall now v objs, run ops (new_validator now) = VRet v -> listing (v_valid v) objs ->
  Forall reads_files ops -> rfc_key_ids (anchor ops) v ->
  exists aki path, ct_maps objs (v_heap v) kempty kempty = VRet (aki, path) /\
    forall order, listing aki order ->
    (forall c, valid_cert v c -> In (hexs (c_ski c), hexs (c_aki c)) order) /\
    exists ls ms, ct objs order v = VRet ls /\ ct_send ls = VRet ms /\
      Forall2 (fun k m => exists c, hexs (c_ski c) = fst k /\ valid_cert v c /\
                 to_anchor sig_ok (anchor ops) _ (encoded ops) c m) order ms.
Proof.
  intros now v objs R L RF K. destruct (ct_anchored _ _ _ _ R L K) as (aki & path & E & H).
  exists aki, path. split; [assumption|]. intros order LO. destruct (H order LO) as (H1 & ls & E2 & F).
  split; [assumption|]. exists ls.
  assert (FF : from_files ops (v_heap v)).
  { apply (run_files ops ops (new_validator now) v RF); auto. intros [|a] r N; discriminate. }
  assert (X : exists ms, ct_send ls = VRet ms /\ Forall2 (fun k m => exists c, hexs (c_ski c) = fst k /\ valid_cert v c /\
                 to_anchor sig_ok (anchor ops) _ (encoded ops) c m) order ms).
  { clear E2 LO H H1. induction F as [|k l order ls (c & C1 & C2 & C3) F IH]; [exists []; split; [reflexivity|constructor]|].
    destruct IH as (ms & E3 & F3). destruct (request_encoded _ _ FF _ _ C3) as (m & E4 & M).
    exists (m :: ms). cbn [Ct.ct_send]. rewrite E4. cbn [vbind]. rewrite E3. split; [reflexivity|]. constructor; [|assumption]. eauto. }
  destruct X as (ms & X1 & X2). exists ms. auto.
Qed.
End Send.
End Files.
