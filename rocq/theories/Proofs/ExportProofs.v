(** From the validator to the exported list. *)
From Coq Require Import String Lia Permutation.
From Verif.Model Require Import Base NetIP CertRes Roa Str Tal Validator TalText NetText Output.
From Verif.Spec Require Import Addr Resources Bits Canon Trust OutputSpec.
From Verif.Proofs Require Import StrProofs NetIPProofs DecodeProofs EncodeProofs CertProofs RoaProofs NetTextProofs
  HeapProofs ValidatorInv ValidatorRun ValidatorFacts ValidatorRes OutputProofs.
Open Scope Z_scope.
Arguments dec : simpl never.

(** * What is exported *)
Lemma gconcat_in {A} (l : list (go (list A))) d : gconcat l = Ret d ->
  forall r, In r d <-> exists x a, In x l /\ x = Ret a /\ In r a.
Proof.
  revert d. induction l as [|x l IH]; intros d H; cbn [gconcat] in H.
  - injection H as <-. intros r. split; [intros []|intros (x & a & [] & _)].
  - destruct x as [a|]; [|discriminate]. cbn [gbind] in H. destruct (gconcat l) as [b|]; [|discriminate].
    cbn [gbind] in H. injection H as <-. intros r. rewrite in_app_iff, (IH b eq_refl). split.
    + intros [R|(y & c & Y & E & R)]; [exists (Ret a), a; auto using in_eq|exists y, c; auto using in_cons].
    + intros (y & c & [<-|Y] & E & R); [injection E as <-; now left|right; eauto].
Qed.

Lemma export_roa_in ta x d : export_roa ta x = Ret d ->
  exists l, valids x = Ret l /\ d = map (export_entry ta (roa_asn x)) l.
Proof.
  unfold export_roa. destruct (valids x) as [l|]; [|discriminate]. cbn [gbind]. intros H. injection H as <-. eauto.
Qed.

Lemma export_tals_in names paths tals : forall i d, export_tals names paths i tals = Ret d ->
  forall r, In r d <-> exists j t x l e, nth_error tals j = Some t /\ In x t /\ valids x = Ret l /\ In e l /\
     r = export_entry (tal_name names paths (i + j)) (roa_asn x) e.
Proof.
  induction tals as [|t tals IH]; intros i d H; cbn [export_tals] in H.
  - injection H as <-. intros r. split; [intros []|]. intros (j & t & x & l & e & N & _). destruct j; discriminate.
  - destruct (gconcat _) as [a|] eqn:G; [|discriminate]. cbn [gbind] in H.
    destruct (export_tals names paths (S i) tals) as [b|] eqn:B; [|discriminate]. cbn [gbind] in H. injection H as <-.
    intros r. rewrite in_app_iff, (IH _ _ B), (gconcat_in _ _ G). split.
    + intros [(y & c & Y & E & R)|(j & t' & x & l & e & N & X & V & E & R)].
      * apply in_map_iff in Y. destruct Y as (x & Y & X). subst y.
        destruct (export_roa_in _ _ _ E) as (l & V & ->). apply in_map_iff in R. destruct R as (e & <- & I).
        exists O, t, x, l, e. rewrite Nat.add_0_r. auto.
      * exists (S j), t', x, l, e. replace (i + S j)%nat with (S i + j)%nat by lia. auto.
    + intros ([|j] & t' & x & l & e & N & X & V & E & R).
      * injection N as <-. left. rewrite Nat.add_0_r in R.
        exists (export_roa (tal_name names paths i) x), (map (export_entry (tal_name names paths i) (roa_asn x)) l).
        split; [apply in_map_iff; eauto|]. split; [unfold export_roa; now rewrite V|].
        apply in_map_iff. eauto.
      * right. exists j, t', x, l, e. replace (S i + j)%nat with (i + S j)%nat by lia. auto.
Qed.

Lemma gconcat_ret {A} (l : list (go (list A))) : (forall x, In x l -> x <> Panic) -> exists d, gconcat l = Ret d.
Proof.
  induction l as [|x l IH]; intros H; [exists []; reflexivity|]. cbn [gconcat].
  destruct x as [a|]; [|exfalso; apply (H Panic); [now left|reflexivity]].
  destruct IH as (d & ->); [intros; apply H; now right|]. cbn [gbind]. eauto.
Qed.

Lemma export_tals_ret names paths tals : (forall t x, In t tals -> In x t -> valids x <> Panic) ->
  forall i, exists d, export_tals names paths i tals = Ret d.
Proof.
  induction tals as [|t tals IH]; intros H i; [exists []; reflexivity|]. cbn [export_tals].
  destruct (gconcat_ret (map (export_roa (tal_name names paths i)) t)) as (a & ->).
  - intros y Y. apply in_map_iff in Y. destruct Y as (x & <- & X). unfold export_roa.
    destruct (valids x) eqn:V; [discriminate|]. exfalso. apply (H t x); auto. now left.
  - cbn [gbind]. destruct (IH (fun t x T => H t x (or_intror T)) (S i)) as (b & ->). cbn [gbind]. eauto.
Qed.

Lemma export_asn_no_slash ta asn e : ~ In 47 (j_asn (export_entry ta asn e)).
Proof.
  cbn [export_entry j_asn]. change (str "AS" ++ dec asn) with (65 :: 83 :: dec asn).
  intros [H|[H|H]]; [discriminate|discriminate|]. now apply dec_no_slash in H.
Qed.

Lemma export_tals_no_slash names paths tals i d : export_tals names paths i tals = Ret d ->
  forall r, In r d -> ~ In 47 (j_asn r).
Proof.
  intros H r R. apply (export_tals_in _ _ _ _ _ H) in R.
  destruct R as (j & t & x & l & e & _ & _ & _ & _ & ->). apply export_asn_no_slash.
Qed.

Definition range_of (e : roa_entry) : bytes * bytes := odefault ([], []) (get_range_ip (re_net e)).

Lemma validate_roa_list_in l : forall cert v iv c, validate_roa_list l cert = Ret (v, iv, c) ->
  forall e, In e v -> In e l /\ exists ck, is_ip_range_in cert (fst (range_of e)) (snd (range_of e)) = Ret (true, ck).
Proof.
  induction l as [|e l IH]; intros cert v iv c H; cbn [validate_roa_list] in H.
  - injection H as <- <- <-. intros e [].
  - destruct (odefault ([], []) (get_range_ip (re_net e))) as [mn mx] eqn:R.
    destruct (is_ip_range_in cert mn mx) as [[b ck]|] eqn:I; [|discriminate]. cbn [gbind] in H.
    destruct (validate_roa_list l cert) as [[[v' iv'] c']|] eqn:V; [|discriminate]. cbn [gbind] in H.
    assert (forall x, In x v' -> In x (e :: l) /\ exists ck,
      is_ip_range_in cert (fst (range_of x)) (snd (range_of x)) = Ret (true, ck)) as G.
    { intros x X. destruct (IH _ _ _ _ V x X) as [A B]. split; eauto using in_cons. }
    intros x X. destruct b.
    + injection H as <- <- <-. destruct X as [<-|X]; [|now apply G].
      split; [now left|]. unfold range_of. rewrite R. eauto.
    + destruct ck; injection H as <- <- <-; now apply G.
Qed.

Lemma valids_in x l e : valids x = Ret l -> In e l -> In e (roa_entries x) /\
  exists ck, is_ip_range_in (c_ips (roa_cert x)) (fst (range_of e)) (snd (range_of e)) = Ret (true, ck).
Proof.
  unfold valids. destruct (validate_roa_list _ _) as [[[v iv] c]|] eqn:E; [|discriminate]. cbn [gbind].
  intros H. injection H as <-. intros I. exact (validate_roa_list_in _ _ _ _ _ E e I).
Qed.

(** * Elements without addresses *)
Definition rejects_nil (i : ipinfo) : Prop := is_ip_in_range i [] = Ret (false, false).
Definition decoded_elem (i : ipinfo) : Prop :=
  match i with
  | INet None => False
  | INet (Some n) => (length (nip n) = 4 \/ length (nip n) = 16)%nat /\
                     (nmask n = [] \/ length (nmask n) = length (nip n))
  | _ => True
  end.

Lemma decode_ip_elem fam b n : decode_ip fam b = Some n -> decoded_elem (INet (Some n)).
Proof.
  unfold decode_ip. destruct (family_size fam) as [s|] eqn:F; [|discriminate]. intros H. injection H as <-.
  cbn [decoded_elem nip nmask]. rewrite copy_into_length.
  assert (s = 4 \/ s = 16)%nat as S.
  { unfold family_size in F. destruct fam as [|x [|y r]]; try discriminate.
    destruct (y =? 1); [injection F as <-; auto|]. destruct (y =? 2); [injection F as <-; auto|discriminate]. }
  split; [exact S|]. unfold cidr_mask. destruct (negb _); [now left|]. destruct (_ || _); [now left|].
  right. rewrite cidr_fill_length. destruct S as [-> | ->]; reflexivity.
Qed.

Lemma decode_ranges_elems fam l : Forall (fun i => i <> INet None -> decoded_elem i) (fst (decode_ranges fam l)).
Proof.
  induction l as [|[b|mn mx| |] l IH]; cbn [decode_ranges]; try constructor.
  - destruct (decode_ranges fam l) as [r ok]. cbn [fst] in *. constructor; [|exact IH].
    intros N. destruct (decode_ip fam b) eqn:D; [now apply (decode_ip_elem fam b)|congruence].
  - destruct (decode_ranges fam l) as [r ok]. cbn [fst] in *. constructor; [intros _; exact I|exact IH].
  - exact IH.
Qed.

Lemma decode_block_elems blk : Forall (fun i => i <> INet None -> decoded_elem i) (fst (decode_ip_block blk)).
Proof.
  induction blk as [|[fam [| | |]] blk IH]; cbn [decode_ip_block]; try constructor;
    try (destruct (decode_ip_block blk) as [r ok]; cbn [fst] in *); try exact IH.
  - constructor; [intros _; exact I|exact IH].
  - pose proof (decode_ranges_elems fam l) as R. destruct (decode_ranges fam l) as [r1 ok1]. cbn [fst] in R.
    destruct ok1; cbn [fst]; [|exact R]. apply Forall_app. split; assumption.
Qed.

Lemma decoded_cert_elems c : decoded_cert c -> Forall decoded_elem (c_ips c).
Proof.
  intros ((blk & ok & E) & N). pose proof (decode_block_elems blk) as F. rewrite E in F. cbn [fst] in F.
  rewrite Forall_forall in *. intros i I. apply F; auto. intros ->. contradiction.
Qed.

(** Over decoded elements nothing panics. *)
Lemma elem_no_panic i ip : decoded_elem i -> exists b ck, is_ip_in_range i ip = Ret (b, ck).
Proof.
  destruct i as [[n|]|mn mx|f]; cbn [decoded_elem is_ip_in_range]; intros D; try contradiction; eauto.
  - destruct (_ || _); eauto.
  - destruct (_ && _); eauto. destruct (_ && _); eauto.
Qed.
Lemma range_in_no_panic l mn mx : Forall decoded_elem l -> exists b ck, is_ip_range_in l mn mx = Ret (b, ck).
Proof.
  induction 1 as [|i l D F IH]; cbn [is_ip_range_in]; [eauto|].
  destruct (elem_no_panic i mn D) as (b1 & c1 & ->). destruct (elem_no_panic i mx D) as (b2 & c2 & ->).
  cbn [gbind]. destruct (b1 && b2); eauto. destruct (c1 || c2); eauto.
Qed.
Lemma roa_list_no_panic l cert : Forall decoded_elem cert -> exists v iv c, validate_roa_list l cert = Ret (v, iv, c).
Proof.
  intros F. induction l as [|e l (v & iv & c & IH)]; cbn [validate_roa_list]; [eauto|].
  destruct (odefault _ _) as [mn mx]. destruct (range_in_no_panic cert mn mx F) as (b & ck & ->). cbn [gbind].
  rewrite IH. cbn [gbind]. destruct b; eauto. destruct ck; eauto.
Qed.

Lemma range_in_nil l : Forall rejects_nil l -> is_ip_range_in l [] [] = Ret (false, false).
Proof.
  induction 1 as [|i l R F IH]; cbn [is_ip_range_in]; [reflexivity|]. rewrite R. cbn [gbind andb orb]. exact IH.
Qed.

Lemma wf_elem_rejects i : wf_elem i -> rejects_nil i.
Proof.
  intros [(fam & lo & hi & D)|(fam & H)].
  - unfold rejects_nil. destruct (denotes_member i fam lo hi [] D eq_refl) as (b & E & B); [discriminate|].
    rewrite E. destruct b; [|reflexivity]. destruct (proj1 B eq_refl) as [F _]. cbn in F. subst fam.
    inversion D as [ip p (_ & [L|L] & _) _ E1 E2|mn mx (_ & [L|L] & _) _ _ E1 E2]; lia.
  - destruct H; reflexivity.
Qed.

(** An element accepted below elements with addresses has addresses. *)
Lemma accepted_rejects l parent vs chk : validate_ip_list l parent = Ret (vs, [], chk) ->
  Forall rejects_nil parent -> Forall decoded_elem l -> Forall rejects_nil l.
Proof.
  revert vs chk. induction l as [|i l IH]; intros vs chk H RP D; [constructor|].
  inversion D as [|? ? D1 D2]; subst. cbn [validate_ip_list] in H.
  destruct (ip_get_range i) as [[[mn mx] cp]|] eqn:G; [|discriminate]. cbn [gbind] in H.
  destruct cp.
  - destruct (validate_ip_list l parent) as [[[v iv] c]|] eqn:V; [|discriminate]. cbn [gbind] in H.
    injection H as <- -> <-. constructor; [|eapply IH; eauto].
    destruct i as [[n|]|a b|f]; cbn [ip_get_range] in G.
    + destruct (get_range_ip n) as [[lo hi]|]; discriminate.
    + discriminate.
    + discriminate.
    + unfold rejects_nil. cbn [is_ip_in_range isSome to4 to16 length Nat.eqb andb negb].
      rewrite !andb_false_r. reflexivity.
  - destruct (is_ip_range_in parent mn mx) as [[b ck]|] eqn:R; [|discriminate]. cbn [gbind] in H.
    destruct (validate_ip_list l parent) as [[[v iv] c]|] eqn:V; [|discriminate]. cbn [gbind] in H.
    assert (NB : mn <> [] \/ mx <> []).
    { destruct mn; [|left; discriminate]. destruct mx; [|right; discriminate].
      rewrite (range_in_nil _ RP) in R. injection R as <- <-. discriminate. }
    constructor.
    + destruct i as [[n|]|a b'|f]; cbn [ip_get_range] in G; try discriminate.
      * destruct (get_range_ip n) as [[lo hi]|] eqn:GR; injection G as <- <-; [|destruct NB; congruence].
        destruct D1 as [LI [LM|LM]].
        -- exfalso. unfold get_range_ip in GR. rewrite LM in GR.
           destruct (nip n); [cbn in LI; lia|discriminate].
        -- unfold rejects_nil. cbn [is_ip_in_range]. f_equal. f_equal.
           unfold net_contains, network_number_and_mask.
           change (to4 []) with (@None bytes). cbn [length].
           destruct (to4 (nip n)) as [x|] eqn:T.
           ++ assert (length x = 4%nat) as LX.
              { unfold to4 in T. destruct (Nat.eqb (length (nip n)) 4) eqn:E4; [injection T as <-; now apply Nat.eqb_eq|].
                destruct (_ && _); [|discriminate]. assert (x = skipn 12 (nip n)) as -> by congruence. rewrite skipn_length.
                destruct LI as [LI|LI]; rewrite LI; [apply Nat.eqb_neq in E4; congruence|reflexivity]. }
              rewrite LX. cbn [Nat.eqb].
              destruct LI as [LI|LI]; rewrite LI in LM; rewrite LM; cbn [Nat.eqb]; rewrite LX; reflexivity.
           ++ destruct LI as [LI|LI]; [rewrite to4_len4 in T by assumption; discriminate|].
              rewrite LI in *. cbn [Nat.eqb]. rewrite LM. cbn [Nat.eqb]. rewrite LI. cbn [Nat.eqb]. rewrite LI. reflexivity.
      * injection G as <- <-. unfold rejects_nil. cbn [is_ip_in_range length].
        destruct a as [|x a]; [|reflexivity]. destruct b' as [|y b']; [|reflexivity]. destruct NB; congruence.
    + destruct b; [injection H as <- -> <-; eapply IH; eauto|].
      destruct ck; [injection H as <- -> <-; eapply IH; eauto|]. discriminate.
Qed.

(** A decoded entry inside elements with addresses is a plain prefix. *)
Lemma decoded_entry_shape e : decoded_entry e -> entry_validate e = true ->
  nmask (re_net e) = [] \/ exists ip p, plain_addr ip /\ 0 <= p <= addr_bits ip /\
    re_net e = mkNet ip (cidr_mask p (addr_bits ip)) /\ p <= re_maxlen e <= addr_bits ip /\
    addr_val ip mod 2 ^ (addr_bits ip - p) = 0.
Proof.
  intros (fam & n & b & ml & F & W & C) V.
  destruct (Z.le_gt_cases (bs_len b) (8 * Z.of_nat n)) as [L|L].
  - right. destruct (converted_validate fam n b ml [e] F W L C) as (e' & E & M & S). injection E as <-.
    apply S in V. destruct V as [V1 V2].
    destruct (decode_ip_spec fam n b F W L) as (net & D & LN & OK & MM & AV).
    cbn [convert_addrs ra_bits ra_maxlen] in C. rewrite D in C. injection C as C.
    assert (re_net e = net) as RN by (rewrite <- C; reflexivity).
    exists (nip net), (bs_len b). unfold addr_bits. rewrite LN.
    pose proof (fam_len _ _ F) as N416. assert (0 <= bs_len b) by apply W.
    split; [|split; [lia|split; [|split; [exact V1|]]]].
    + split; [assumption|]. rewrite LN. split; [assumption|]. intros N16. rewrite AV.
      specialize (V2 N16). rewrite N16. exact V2.
    + rewrite RN. destruct net as [ip m]. cbn [nip nmask] in *. congruence.
    + rewrite AV. apply Z.mod_mul. apply Z.pow_nonzero; lia.
  - left. destruct (decode_ip_too_long fam n b F L) as (net & D & M).
    cbn [convert_addrs ra_bits ra_maxlen] in C. rewrite D in C. injection C as <-. exact M.
Qed.

Lemma decoded_ip_nonempty e : decoded_entry e -> nip (re_net e) <> [].
Proof.
  intros (fam & n & b & ml & F & W & C) N. cbn [convert_addrs ra_bits ra_maxlen] in C.
  destruct (decode_ip fam b) as [net|] eqn:D; [|discriminate]. injection C as C.
  unfold decode_ip in D. rewrite (fam_octets_size _ _ F) in D. injection D as D.
  assert (length (nip (re_net e)) = n) as L by (rewrite <- C, <- D; cbn [re_net nip]; apply copy_into_length).
  rewrite N in L. cbn in L. destruct (fam_len _ _ F); lia.
Qed.

Lemma entry_in_shape e l ck : decoded_entry e -> entry_validate e = true -> Forall rejects_nil l ->
  is_ip_range_in l (fst (range_of e)) (snd (range_of e)) = Ret (true, ck) ->
  exists ip p, plain_addr ip /\ 0 <= p <= addr_bits ip /\
    re_net e = mkNet ip (cidr_mask p (addr_bits ip)) /\ p <= re_maxlen e <= addr_bits ip /\
    addr_val ip mod 2 ^ (addr_bits ip - p) = 0.
Proof.
  intros D V R I. destruct (decoded_entry_shape e D V) as [N|S]; [|exact S]. exfalso.
  unfold range_of, get_range_ip in I. rewrite N in I. pose proof (decoded_ip_nonempty e D) as NE.
  destruct (nip (re_net e)); [congruence|]. cbn [range_loop odefault fst snd] in I.
  rewrite range_in_nil in I by assumption. discriminate.
Qed.

(** Inside well-formed elements a range is covered; the last address need not
    be plain. *)
Lemma range_in_covered l : forall mn mx ck, wf_list l -> plain_addr mn -> bytes_ok mx = true -> length mx = length mn ->
  is_ip_range_in l mn mx = Ret (true, ck) -> covered l (length mn) (addr_val mn) (addr_val mx).
Proof.
  induction l as [|i l IH]; intros mn mx ck W P O L H; [discriminate|].
  inversion W as [|? ? W1 W2]; subst. cbn [is_ip_range_in] in H.
  assert (NX : forall b1 c1 b2 c2, is_ip_in_range i mn = Ret (b1, c1) -> is_ip_in_range i mx = Ret (b2, c2) ->
    b1 && b2 = false -> covered (i :: l) (length mn) (addr_val mn) (addr_val mx)).
  { intros b1 c1 b2 c2 E1 E2 B. rewrite E1, E2 in H. cbn [gbind] in H. rewrite B in H.
    destruct (c1 || c2); [discriminate|]. destruct (IH mn mx ck W2 P O L H) as (e & lo & hi & I & R).
    exists e, lo, hi. split; [now right|exact R]. }
  destruct W1 as [(fam & lo & hi & D)|(fam & D)].
  - destruct (denotes_member i fam lo hi mn D (proj1 P) (plain_not_mapped _ P)) as (b1 & E1 & H1).
    assert (exists b2, is_ip_in_range i mx = Ret (b2, false) /\ (b2 = true -> lo <= addr_val mx <= hi \/ length mx <> fam)) as (b2 & E2 & H2).
    { destruct D as [ip p A Q|a b A1 A2 AL].
      - eexists. split; [reflexivity|]. intros C. destruct A as (Ok & F & M).
        destruct (Nat.eq_dec (length mx) (length ip)) as [E|E]; [left|right; exact E].
        assert (not_mapped mx) as NM.
        { intros L16 MM. unfold net_contains in C.
          assert (to4 ip = None) as T by (apply to4_not_mapped; auto; congruence).
          destruct (to4 mx) as [x|] eqn:TX.
          - pose proof (to4_len16 mx L16 O) as Z. rewrite TX in Z. destruct Z as (_ & _ & Z).
            pose proof (to4_len16 mx L16 O) as Z'. rewrite TX in Z'. destruct Z' as (X4 & _ & _).
            revert C. unfold network_number_and_mask. cbn [nip nmask]. rewrite T, <- E, L16. cbn [Nat.eqb].
            destruct (Nat.eqb (length (cidr_mask p (addr_bits ip))) 4);
              [|destruct (Nat.eqb (length (cidr_mask p (addr_bits ip))) 16)]; rewrite X4; cbn [length Nat.eqb negb]; try discriminate;
              rewrite <- E, L16; cbn [Nat.eqb length]; rewrite <- ?E, ?L16; cbn [negb]; discriminate.
          - pose proof (to4_len16 mx L16 O) as Z. rewrite TX in Z. rewrite addr_val_bval in MM. auto. }
        apply net_contains_spec in C; auto. apply C.
      - destruct (denotes_member (IRange a b) (length a) (addr_val a) (addr_val b) mn (den_range _ _ A1 A2 AL) (proj1 P) (plain_not_mapped _ P)) as (? & _ & _).
        cbn [is_ip_in_range]. destruct (Nat.eqb_spec (length mx) (length a)) as [X|X]; cbn [negb orb].
        + destruct (Nat.eqb_spec (length mx) (length b)) as [Y|Y]; cbn [negb orb]; [|lia].
          eexists. split; [reflexivity|]. destruct A1 as (O1 & _), A2 as (O2 & _).
          rewrite !bytes_compare_num by auto. rewrite !addr_val_bval.
          destruct (bval mx <? bval a) eqn:Z1; destruct (bval a <? bval mx) eqn:Z2;
          destruct (bval mx <? bval b) eqn:Z3; destruct (bval b <? bval mx) eqn:Z4; cbn; try discriminate; lia.
        + eexists. split; [reflexivity|]. discriminate. }
    destruct (b1 && b2) eqn:B; [|exact (NX _ _ _ _ E1 E2 B)].
    apply andb_true_iff in B as [-> ->]. destruct (proj1 H1 eq_refl) as [<- Q1].
    destruct (H2 eq_refl) as [Q2|Q2]; [|congruence].
    exists i, lo, hi. split; [now left|]. repeat split; auto; lia.
  - assert (exists c1, is_ip_in_range i mn = Ret (false, c1)) as (c1 & E1).
    { rewrite (inherits_member i fam mn D P). eauto. }
    assert (exists c2, is_ip_in_range i mx = Ret (false, c2)) as (c2 & E2).
    { destruct D; cbn [is_ip_in_range]; repeat match goal with |- context [if ?b then _ else _] => destruct b end; eauto. }
    exact (NX _ _ _ _ E1 E2 eq_refl).
Qed.

(** * Over runs of the validator *)
Section Runs.
Variable sig_ok : cert -> cert -> bool.
Variable crl_sig_ok : cert -> crl -> bool.
Variable dec_tal : bytes -> option tal.
Variable dec_cert : bytes -> option cert.
Variable dec_roa : bytes -> option roa.
Variable dec_mft : bytes -> option mft.
Variable dec_crl : bytes -> option crl.
Variable hex_sha1 : bytes -> bytes.

Notation Inv := (Inv sig_ok).
Notation run := (run sig_ok crl_sig_ok dec_tal dec_cert dec_roa dec_mft dec_crl hex_sha1).
Notation anchor := (given_as_anchor dec_cert).
Notation inv_run := (inv_run sig_ok crl_sig_ok dec_tal dec_cert dec_roa dec_mft dec_crl hex_sha1).
Notation chain := (chain sig_ok dec_cert).

Lemma run_claims ops now v : run ops (new_validator now) = VRet v -> Inv (anchor ops) v /\ claims_ok (anchor ops) v.
Proof.
  intros R. destruct (inv_run _ _ _ R) as (I & _). split; [assumption|].
  apply (claims_run sig_ok crl_sig_ok dec_tal dec_cert dec_roa dec_mft dec_crl hex_sha1 (anchor ops) ops (new_validator now) v);
    auto; [apply inv_new|]. unfold claims_ok. cbn. discriminate.
Qed.

(** The issuer of a valid certificate that is not an anchor, with both the
    chain and the resource facts. *)
Lemma issuer_of ops v a c : Inv (anchor ops) v -> claims_ok (anchor ops) v ->
  v_valid v (c_ski c) = Some a -> hobj (v_heap v) a = Some (OCert c) ->
  anchor ops c \/ exists pa pc, (pa < a)%nat /\ v_valid v (c_ski pc) = Some pa /\ hobj (v_heap v) pa = Some (OCert pc) /\
    hpar (v_heap v) a = Some pa /\ c_aki c = c_ski pc /\ sig_ok pc c = true /\ held (v_heap v) c pa pc.
Proof.
  intros I CL V H. destruct (inv_chain _ _ _ I _ _ _ V H) as (_ & [T|(pa & pc & PV & PH & S & PP)]); [now left|].
  destruct (CL _ _ _ V H) as [T|(pa' & pc' & P1 & P2 & P3)]; [now left|]. right.
  assert (pa' = pa) by congruence. subst pa'. assert (pc' = pc) by congruence. subst pc'.
  destruct (inv_obj _ _ _ I _ _ (inv_valid _ _ _ I _ _ PV)) as (pc2 & Z1 & Z2). assert (pc2 = pc) by congruence. subst pc2.
  exists pa, pc. split; [exact (inv_par _ _ _ I _ _ PP)|]. rewrite Z2. auto 10.
Qed.

Lemma at_valid v a c : v_valid v (c_ski c) = Some a -> hobj (v_heap v) a = Some (OCert c) -> valid_cert v c.
Proof. intros V H. exists a. split; [assumption|now apply hobj_cert_at]. Qed.

(** No element without addresses below well-formed anchors. *)
Lemma valid_rejects ops now v : run ops (new_validator now) = VRet v ->
  (forall c, valid_cert v c -> decoded_cert c) ->
  (forall c, valid_cert v c -> anchor ops c -> wf_list (c_ips c)) ->
  forall c, valid_cert v c -> Forall rejects_nil (c_ips c).
Proof.
  intros R D W. destruct (run_claims _ _ _ R) as (I & CL).
  assert (forall n a c, (a < n)%nat -> v_valid v (c_ski c) = Some a -> hobj (v_heap v) a = Some (OCert c) ->
    Forall rejects_nil (c_ips c)) as G.
  { induction n as [|n IH]; intros a c L V H; [lia|]. pose proof (at_valid _ _ _ V H) as VC.
    destruct (issuer_of _ _ _ _ I CL V H) as [T|(pa & pc & LT & PV & PH & _ & _ & _ & ((vs & chk & E & _) & _))].
    - specialize (W c VC T). revert W. apply Forall_impl. apply wf_elem_rejects.
    - apply (accepted_rejects _ _ _ _ E); [apply (IH pa); auto; lia|]. apply decoded_cert_elems. auto. }
  intros c (a & V & C). apply hobj_cert_at in C. exact (G (S a) a c (Nat.lt_succ_diag_r a) V C).
Qed.

(** Addresses held along the chain. *)
Lemma wf_claims_list l : Forall wf_claim l -> wf_list l.
Proof.
  apply Forall_impl. intros i [(fam & H)|(fam & lo & hi & H & _)]; [right; eauto|left; eauto].
Qed.

Lemma holds_up ops now v : run ops (new_validator now) = VRet v ->
  (forall c, valid_cert v c -> Forall wf_claim (c_ips c)) ->
  (forall c fam, valid_cert v c -> anchor ops c -> ~ inherited (c_ips c) fam) ->
  (forall c p fam, valid_cert v c -> valid_cert v p -> c_aki c = c_ski p ->
     inherited (c_ips c) fam -> ~ inherited (c_ips p) fam) ->
  forall fam lo hi c, valid_cert v c -> covered (c_ips c) fam lo hi -> holds sig_ok (anchor ops) v fam lo hi c.
Proof.
  intros R WF NA NI fam lo hi. destruct (run_claims _ _ _ R) as (I & CL).
  assert (forall n a c, (a < n)%nat -> v_valid v (c_ski c) = Some a -> hobj (v_heap v) a = Some (OCert c) ->
    covered (c_ips c) fam lo hi -> holds sig_ok (anchor ops) v fam lo hi c) as G.
  { induction n as [|n IH]; intros a c L V H CV; [lia|]. pose proof (at_valid _ _ _ V H) as VC.
    destruct (issuer_of _ _ _ _ I CL V H) as [T|(pa & pc & LT & PV & PH & PP & AK & SG & ((vs & chk & E & HC) & _))];
      [now apply holds_anchor|].
    pose proof (at_valid _ _ _ PV PH) as VP.
    destruct CV as (i & lo' & hi' & IN & DN & Q1 & Q2).
    assert (CVc : covered (c_ips c) fam lo hi) by (exists i, lo', hi'; auto).
    destruct (ip_first _ _ _ _ (WF c VC) (wf_claims_list _ (WF pc VP)) E _ _ _ _ IN DN) as [X|[X1 X2]].
    - apply (holds_link _ _ _ _ _ _ c pc); auto. apply (IH pa); auto; [lia|].
      destruct X as (e & l2 & h2 & A1 & A2 & A3 & A4). exists e, l2, h2. repeat split; auto; lia.
    - destruct HC as [->|[HN|(g & gc & vs2 & chk2 & H1 & H2 & H3)]]; [destruct X1| |].
      + exfalso. destruct (issuer_of _ _ _ _ I CL PV PH) as [T|(ga & gc & _ & _ & _ & GP & _)]; [|congruence].
        exact (NA pc fam VP T X2).
      + destruct (issuer_of _ _ _ _ I CL PV PH) as [T|(ga & gc' & GL & GV & GH & GP & GA & GS & _)].
        { exfalso. exact (NA pc fam VP T X2). }
        assert (ga = g) by congruence. subst ga. assert (gc' = gc) by congruence. subst gc'.
        pose proof (at_valid _ _ _ GV GH) as VG.
        assert (FC : Forall wf_claim chk).
        { eapply forall_chk; [eapply validate_ip_list_perm; exact E|exact (WF c VC)]. }
        destruct (ip_first _ _ _ _ FC (wf_claims_list _ (WF gc VG)) H3 _ _ _ _ X1 DN) as [Y|[_ Y]].
        * apply (holds_link _ _ _ _ _ _ c pc); auto. apply (holds_link _ _ _ _ _ _ pc gc); auto.
          apply (IH g); auto; [lia|].
          destruct Y as (e & l2 & h2 & A1 & A2 & A3 & A4). exists e, l2, h2. repeat split; auto; lia.
        * exfalso. exact (NI pc gc fam VP VG GA X2 Y). }
  intros c (a & V & C) CV. apply hobj_cert_at in C. exact (G (S a) a c (Nat.lt_succ_diag_r a) V C CV).
Qed.

(** A valid ROA: its entries pass, its certificate is valid with a chain. *)
Lemma valid_roa_facts ops now v x : run ops (new_validator now) = VRet v -> valid_roa v x ->
  valid_cert v (roa_cert x) /\ chain ops v (roa_cert x) /\ validate_entries (roa_entries x) = true /\ roa_inner x = true.
Proof.
  intros R (b & V & RA).
  destruct (chain_of_roa sig_ok crl_sig_ok dec_tal dec_cert dec_roa dec_mft dec_crl hex_sha1 _ _ _ R _ _ V)
    as (x' & RA' & K & IN & VE & CH).
  assert (x' = x).
  { destruct RA as (r & A1 & A2), RA' as (r' & B1 & B2). congruence. }
  subst x'. split; [|auto]. inversion CH; assumption.
Qed.

(** * The exported list *)
Notation is_run r := (run (run_ops r) (new_validator (run_now r)) = VRet (run_state r)).

Notation produced := (produced run).

Lemma produced_nth rs tals : produced rs tals -> forall j t, nth_error tals j = Some t ->
  exists r, nth_error rs j = Some r /\ is_run r /\ lists_valid_roas (run_state r) t.
Proof.
  induction 1 as [|r t rs tals A F IH]; intros [|j] t' N; cbn [nth_error] in *; try discriminate; [|eauto].
  injection N as <-. exists r. tauto.
Qed.
Lemma produced_nth' rs tals : produced rs tals -> forall j r, nth_error rs j = Some r ->
  exists t, nth_error tals j = Some t /\ is_run r /\ lists_valid_roas (run_state r) t.
Proof.
  induction 1 as [|r t rs tals A F IH]; intros [|j] r' N; cbn [nth_error] in *; try discriminate; [|eauto].
  injection N as <-. exists t. tauto.
Qed.

Lemma finish_list_in filt data now d L : finish_list filt data now d = Ret L ->
  (forall r, In r data -> ~ In 47 (j_asn r)) ->
  (forall r, In r (l_data L) -> In r data /\ (filt = true -> kept r = true)) /\
  (forall r, In r data -> (filt = false \/ forall r', vrp r' = vrp r -> kept r' = true) -> In (vrp r) (map vrp (l_data L))).
Proof.
  unfold finish_list. intros H S. destruct filt.
  - destruct (filter_prefix_len (filter_duplicates data)) as [x|] eqn:E; [|discriminate]. cbn [gbind] in H. injection H as <-.
    cbn [l_data]. apply filter_prefix_len_data in E. subst x.
    destruct (filter_duplicates_spec data S) as (A1 & A2 & A3 & A4).
    set (q := filter kept (filter_duplicates data)).
    assert (S' : forall r, In r q -> ~ In 47 (j_asn r)).
    { intros r I. apply filter_In in I as [I _]. apply S. exact (subseq_in _ _ A1 _ I). }
    destruct (filter_duplicates_spec q S') as (B1 & B2 & B3 & B4). split.
    + intros r I. apply (subseq_in _ _ B1) in I. apply filter_In in I as [I K]. split; [exact (subseq_in _ _ A1 _ I)|auto].
    + intros r I [F|K]; [discriminate|]. specialize (A4 r I). apply in_map_iff in A4 as (r' & V & I').
      rewrite <- V. apply B4. apply filter_In. split; [assumption|]. now apply K.
  - cbn [gbind] in H. injection H as <-. cbn [l_data].
    destruct (filter_duplicates_spec data S) as (A1 & A2 & A3 & A4). split; [|auto].
    intros r I. split; [exact (subseq_in _ _ A1 _ I)|discriminate].
Qed.

Lemma generate_in filt names paths tals now d L : generate_list filt names paths tals now d = Ret L ->
  exists data, export_tals names paths 0 tals = Ret data /\ finish_list filt data now d = Ret L /\
    (forall r, In r data -> ~ In 47 (j_asn r)).
Proof.
  unfold generate_list. destruct (export_tals names paths 0 tals) as [data|] eqn:E; [|discriminate]. cbn [gbind].
  intros H. exists data. repeat split; auto. eapply export_tals_no_slash; eassumption.
Qed.

(** Every entry comes from a valid ROA. *)
Lemma exported_from rs tals filt names paths now d L : produced rs tals ->
  generate_list filt names paths tals now d = Ret L -> forall r, In r (l_data L) ->
  exists j q x l e, nth_error rs j = Some q /\ is_run q /\ valid_roa (run_state q) x /\ valids x = Ret l /\ In e l /\
    In e (roa_entries x) /\ r = export_entry (tal_name names paths j) (roa_asn x) e /\
    chain (run_ops q) (run_state q) (roa_cert x).
Proof.
  intros P G r I. destruct (generate_in _ _ _ _ _ _ _ G) as (data & E & F & S).
  destruct (finish_list_in _ _ _ _ _ F S) as (A & _). destruct (A _ I) as [I' _].
  apply (export_tals_in _ _ _ _ _ E) in I' as (j & t & x & l & e & T & X & V & IE & R).
  destruct (produced_nth _ _ P _ _ T) as (q & Q & RN & LV).
  exists j, q, x, l, e. assert (valid_roa (run_state q) x) as VR by (now apply LV).
  destruct (valid_roa_facts _ _ _ _ RN VR) as (_ & CH & _).
  destruct (valids_in _ _ _ V IE) as (IR & _). auto 10.
Qed.

Lemma validate_entries_in l e : validate_entries l = true -> In e l -> entry_validate e = true.
Proof.
  unfold validate_entries. intros H I. rewrite forallb_forall in H. now apply H.
Qed.

(** Shape of the entries, under well-formed anchors. *)
Lemma valids_shape q x l e : is_run q -> valid_roa (run_state q) x -> valids x = Ret l -> In e l ->
  (forall c, valid_cert (run_state q) c -> Forall rejects_nil (c_ips c)) ->
  (forall x e, valid_roa (run_state q) x -> In e (roa_entries x) -> decoded_entry e) ->
  exists ip p, plain_addr ip /\ 0 <= p <= addr_bits ip /\
    re_net e = mkNet ip (cidr_mask p (addr_bits ip)) /\ p <= re_maxlen e <= addr_bits ip /\
    addr_val ip mod 2 ^ (addr_bits ip - p) = 0.
Proof.
  intros RN VR V IE RJ DE. destruct (valid_roa_facts _ _ _ _ RN VR) as (VC & _ & VE & _).
  destruct (valids_in _ _ _ V IE) as (IR & ck & IN).
  apply (entry_in_shape e (c_ips (roa_cert x)) ck); eauto using validate_entries_in.
Qed.

Lemma conforming_rejects (A : cert -> Prop) v : conforming_state A v -> forall c, valid_cert v c -> Forall rejects_nil (c_ips c).
Proof.
  intros (W & _) c VC. specialize (W c VC). apply wf_claims_list in W. revert W. apply Forall_impl. apply wf_elem_rejects.
Qed.

Lemma decoded_rejects q : is_run q -> decoded_state (anchor (run_ops q)) (run_state q) ->
  forall c, valid_cert (run_state q) c -> Forall rejects_nil (c_ips c).
Proof. intros RN (D & W & _). now apply (valid_rejects _ _ _ RN). Qed.

Lemma addr_bits_small ip : plain_addr ip -> addr_bits ip <= 128.
Proof. intros (_ & [F|F] & _); unfold addr_bits; rewrite F; lia. Qed.

Lemma entry_shows ta asn e ip p : plain_addr ip -> 0 <= p <= addr_bits ip ->
  re_net e = mkNet ip (cidr_mask p (addr_bits ip)) -> p <= re_maxlen e <= addr_bits ip ->
  shows (export_entry ta asn e) ip p /\ j_len (export_entry ta asn e) = re_maxlen e.
Proof.
  intros A P N M. split.
  - repeat split; auto; try apply A; try lia. cbn [export_entry j_prefix]. now rewrite N.
  - cbn [export_entry j_len]. pose proof (addr_bits_small ip A). apply Z.mod_small. lia.
Qed.

(** Nothing panics. *)
Lemma generate_returns rs tals filt names paths now d : produced rs tals ->
  (forall q, In q rs -> decoded_state (anchor (run_ops q)) (run_state q)) ->
  exists L, generate_list filt names paths tals now d = Ret L.
Proof.
  intros P D. unfold generate_list.
  assert (VP : forall t x, In t tals -> In x t -> exists q, In q rs /\ is_run q /\ valid_roa (run_state q) x).
  { intros t x T X. apply In_nth_error in T as (j & T). destruct (produced_nth _ _ P _ _ T) as (q & Q & RN & LV).
    exists q. split; [eapply nth_error_In; eassumption|]. split; [assumption|now apply LV]. }
  destruct (export_tals_ret names paths tals) with (i := 0%nat) as (data & E).
  { intros t x T X. destruct (VP t x T X) as (q & Q & RN & VR). destruct (D q Q) as (D1 & _).
    destruct (valid_roa_facts _ _ _ _ RN VR) as (VC & _).
    unfold valids. destruct (roa_list_no_panic (roa_entries x) (c_ips (roa_cert x))) as (v & iv & c & ->);
      [now apply decoded_cert_elems, D1|]. discriminate. }
  rewrite E. cbn [gbind]. unfold finish_list. destruct filt; [|cbn [gbind]; eauto].
  rewrite filter_prefix_len_ret; [cbn [gbind]; eauto|].
  intros r I. pose proof (export_tals_no_slash _ _ _ _ _ E) as S.
  destruct (filter_duplicates_spec data S) as (A1 & _). apply (subseq_in _ _ A1) in I.
  apply (export_tals_in _ _ _ _ _ E) in I as (j & t & x & l & e & T & X & V & IE & ->).
  destruct (VP t x (nth_error_In _ _ T) X) as (q & Q & RN & VR).
  destruct (valids_shape q x l e RN VR V IE (decoded_rejects q RN (D q Q)) (proj2 (proj2 (D q Q)))) as (ip & p & S1 & S2 & S3 & S4 & _).
  destruct (entry_shows (tal_name names paths (0 + j)) (roa_asn x) e ip p S1 S2 S3 S4) as (SH & _).
  rewrite (get_prefix_shows _ _ _ SH). discriminate.
Qed.

(** The list after the filter. *)
Lemma generated_filter rs tals names paths now d L : produced rs tals ->
  (forall q, In q rs -> decoded_state (anchor (run_ops q)) (run_state q)) ->
  generate_list true names paths tals now d = Ret L ->
  forall r, In r (l_data L) -> exists ip p, shows r ip p /\ p <= longest ip.
Proof.
  intros P D G r I. destruct (exported_from _ _ _ _ _ _ _ _ P G r I) as (j & q & x & l & e & Q & RN & VR & V & IE & IR & -> & _).
  pose proof (D q (nth_error_In _ _ Q)) as DQ.
  destruct (valids_shape q x l e RN VR V IE (decoded_rejects q RN DQ) (proj2 (proj2 DQ))) as (ip & p & S1 & S2 & S3 & S4 & _).
  destruct (entry_shows (tal_name names paths j) (roa_asn x) e ip p S1 S2 S3 S4) as (SH & _).
  exists ip, p. split; [assumption|].
  destruct (generate_in _ _ _ _ _ _ _ G) as (data & E & F & S).
  destruct (finish_list_in _ _ _ _ _ F S) as (A & _). destruct (A _ I) as [_ K].
  specialize (K eq_refl). rewrite (kept_shows _ _ _ SH) in K. now apply Z.leb_le.
Qed.

(** The name of the trust anchor in an exported entry. *)
Lemma exported_ta rs tals filt names paths now d L : produced rs tals ->
  length rs = length paths ->
  generate_list filt names paths tals now d = Ret L -> forall r, In r (l_data L) ->
  exists j q x e, nth_error rs j = Some q /\ valid_roa (run_state q) x /\ In e (roa_entries x) /\
    vrp r = (ipnet_text (re_net e), re_maxlen e mod 2 ^ 8, str "AS" ++ dec (roa_asn x)) /\
    (length names = length paths -> nth_error names j = Some (j_ta r)) /\
    (length names <> length paths -> nth_error paths j = Some (j_ta r)).
Proof.
  intros P LP G r I. destruct (exported_from _ _ _ _ _ _ _ _ P G r I) as (j & q & x & l & e & Q & RN & VR & V & IE & IR & -> & CH).
  exists j, q, x, e. split; [assumption|]. split; [assumption|]. split; [assumption|]. split; [reflexivity|].
  assert (j < length paths)%nat as J by (rewrite <- LP; apply nth_error_Some; congruence).
  unfold export_entry, tal_name. cbn [j_ta]. split; intros E.
  - rewrite (proj2 (Nat.eqb_eq _ _) E). apply nth_error_nth'. lia.
  - rewrite (proj2 (Nat.eqb_neq _ _) E). apply nth_error_nth'. lia.
Qed.

(** The resources of an exported entry are held along the chain. *)
Lemma entry_held q x l e : is_run q -> conforming_state (anchor (run_ops q)) (run_state q) ->
  valid_roa (run_state q) x -> valids x = Ret l -> In e l ->
  exists ip p, plain_addr ip /\ 0 <= p <= addr_bits ip /\
    re_net e = mkNet ip (cidr_mask p (addr_bits ip)) /\ p <= re_maxlen e <= addr_bits ip /\
    holds sig_ok (anchor (run_ops q)) (run_state q) (length ip)
      (first_addr (addr_bits ip) p (addr_val ip)) (last_addr (addr_bits ip) p (addr_val ip)) (roa_cert x).
Proof.
  intros RN DQ VR V IE. pose proof DQ as (W1 & W2 & W3 & W4).
  destruct (valids_shape q x l e RN VR V IE (conforming_rejects _ _ DQ) W4) as (ip & p & S1 & S2 & S3 & S4 & S5).
  exists ip, p. split; [assumption|]. split; [assumption|]. split; [assumption|]. split; [assumption|].
  destruct (valid_roa_facts _ _ _ _ RN VR) as (VC & _).
  apply (holds_up _ _ _ RN W1 W2 W3); [assumption|].
  destruct (valids_in _ _ _ V IE) as (_ & ck & IN).
  pose proof S1 as (O & FM & NM).
  destruct (range_loop_spec ip p O S2) as (lo & hi & R & L1 & L2 & B1 & B2 & V1 & V2).
  assert (range_of e = (lo, hi)) as RE.
  { unfold range_of, get_range_ip. rewrite S3. cbn [nip nmask].
    unfold addr_bits. rewrite cidr_mask_ok by (auto; exact S2). now rewrite R. }
  rewrite RE in IN. cbn [fst snd] in IN. unfold addr_bits in *. rewrite addr_val_bval in *.
  assert (bval lo = bval ip) as LI.
  { rewrite V1. unfold first_addr. rewrite S5. apply Z.sub_0_r. }
  assert (plain_addr lo) as PL.
  { split; [assumption|]. rewrite L1. split; [assumption|]. intros L16. rewrite addr_val_bval, LI. now apply NM. }
  pose proof (range_in_covered _ lo hi ck (wf_claims_list _ (W1 _ VC)) PL B2 ltac:(congruence) IN) as CV.
  rewrite L1, !addr_val_bval, V1, V2 in CV. exact CV.
Qed.

Lemma exported_held rs tals filt names paths now d L : produced rs tals ->
  (forall q, In q rs -> conforming_state (anchor (run_ops q)) (run_state q)) ->
  generate_list filt names paths tals now d = Ret L -> forall r, In r (l_data L) ->
  exists j q x e ip p, nth_error rs j = Some q /\ valid_roa (run_state q) x /\ In e (roa_entries x) /\
    j_ta r = tal_name names paths j /\ j_asn r = str "AS" ++ dec (roa_asn x) /\
    j_len r = re_maxlen e /\ shows r ip p /\ p <= j_len r <= addr_bits ip /\
    holds sig_ok (anchor (run_ops q)) (run_state q) (length ip)
      (first_addr (addr_bits ip) p (addr_val ip)) (last_addr (addr_bits ip) p (addr_val ip)) (roa_cert x).
Proof.
  intros P D G r I. destruct (exported_from _ _ _ _ _ _ _ _ P G r I) as (j & q & x & l & e & Q & RN & VR & V & IE & IR & -> & CH).
  destruct (entry_held q x l e RN (D q (nth_error_In _ _ Q)) VR V IE) as (ip & p & S1 & S2 & S3 & S4 & HD).
  destruct (entry_shows (tal_name names paths j) (roa_asn x) e ip p S1 S2 S3 S4) as (SH & LN).
  exists j, q, x, e, ip, p. rewrite LN. split; [assumption|]. split; [assumption|]. split; [assumption|].
  split; [reflexivity|]. split; [reflexivity|]. split; [reflexivity|]. split; [assumption|]. split; assumption.
Qed.

(** Conversely, what the ROAs authorise is in the list. *)
Lemma exported_all rs tals filt names paths now d L : produced rs tals ->
  generate_list filt names paths tals now d = Ret L ->
  forall j q x ip p ml, nth_error rs j = Some q -> valid_roa (run_state q) x ->
  let e := mkEntry (mkNet ip (cidr_mask p (addr_bits ip))) ml in
  In e (roa_entries x) -> plain_addr ip -> 0 <= p <= addr_bits ip -> p <= ml <= addr_bits ip ->
  wf_list (c_ips (roa_cert x)) -> (forall fam, ~ inherited (c_ips (roa_cert x)) fam) ->
  (forall e, In e (roa_entries x) -> exists fam lo hi, entry_denotes e fam lo hi /\ plain_bounds fam lo hi) ->
  covered (c_ips (roa_cert x)) (length ip) (first_addr (addr_bits ip) p (addr_val ip)) (last_addr (addr_bits ip) p (addr_val ip)) ->
  filt = false \/ p <= longest ip ->
  In (ipnet_text (re_net e), ml, str "AS" ++ dec (roa_asn x)) (map vrp (l_data L)).
Proof.
  intros P G j q x ip p ml Q VR e IE A PP M WC NI DE CV FL.
  destruct (generate_in _ _ _ _ _ _ _ G) as (data & E & F & S).
  destruct (finish_list_in _ _ _ _ _ F S) as (_ & C).
  destruct (produced_nth' _ _ P _ _ Q) as (t & T & RN & LV).
  destruct (validate_roa_list_spec (roa_entries x) (c_ips (roa_cert x)) WC DE) as (v & iv & c & V & PM & _ & HC & HI).
  destruct (entry_shows (tal_name names paths (0 + j)) (roa_asn x) e ip p A PP eq_refl M) as (SH & LN).
  assert (In e v) as IV.
  { apply (Permutation_in _ PM) in IE. apply in_app_or in IE as [IE|IE]; [assumption|exfalso].
    apply in_app_or in IE as [IE|IE].
    - destruct (HI e IE) as (fam & lo & hi & DN & NC & _). apply NC.
      inversion DN as [ip' p' A' P' E0 E1 E2 E3|]. match goal with M' : cidr_mask _ _ = cidr_mask _ _ |- _ => apply cidr_mask_inj in M'; [rewrite M'; exact CV|assumption..] end.
    - destruct (HC e IE) as (fam & _ & _ & _ & IH). exact (NI fam IH). }
  assert (In (export_entry (tal_name names paths (0 + j)) (roa_asn x) e) data) as ID.
  { apply (export_tals_in _ _ _ _ _ E). exists j, t, x, v, e. repeat split; auto; [now apply LV|].
    unfold valids. now rewrite V. }
  specialize (C _ ID). replace (ipnet_text (re_net e), ml, str "AS" ++ dec (roa_asn x))
    with (vrp (export_entry (tal_name names paths (0 + j)) (roa_asn x) e)).
  - apply C. destruct FL as [FL|FL]; [now left|right]. intros r' VR'.
    assert (shows r' ip p) as SH'.
    { destruct SH as (S1 & S2 & S3). split; [assumption|]. split; [assumption|]. unfold vrp in VR'. congruence. }
    rewrite (kept_shows _ _ _ SH'). now apply Z.leb_le.
  - unfold vrp. rewrite LN. reflexivity.
Qed.

(** The consumer reads back what the ROA says. *)
Lemma exported_read ta asn e ip p : plain_addr ip -> 0 <= p <= addr_bits ip ->
  re_net e = mkNet ip (cidr_mask p (addr_bits ip)) -> p <= re_maxlen e <= addr_bits ip ->
  exists ip', get_prefix (export_entry ta asn e) = Some (mkNet ip' (cidr_mask p (addr_bits ip))) /\
    length ip' = length ip /\ bytes_ok ip' = true /\
    addr_val ip' = first_addr (addr_bits ip) p (addr_val ip) /\
    j_len (export_entry ta asn e) = re_maxlen e /\
    get_asn2 (export_entry ta asn e) = if (0 <=? asn) && (asn <? 2 ^ 32) then Some asn else None.
Proof.
  intros A P N M. destruct (entry_shows ta asn e ip p A P N M) as (SH & LN).
  eexists. split; [exact (get_prefix_shows _ _ _ SH)|]. pose proof (and_bytes_first ip p A P) as (B & L & V). cbv zeta in *.
  repeat split; auto. unfold get_asn2. cbn [export_entry j_asn]. rewrite trim_as. apply parse_uint32_dec.
Qed.

Lemma generated_read rs tals filt names paths now d L : produced rs tals ->
  (forall q, In q rs -> decoded_state (anchor (run_ops q)) (run_state q)) ->
  generate_list filt names paths tals now d = Ret L -> forall r, In r (l_data L) ->
  exists j q x e ip p, nth_error rs j = Some q /\ valid_roa (run_state q) x /\ In e (roa_entries x) /\
    re_net e = mkNet ip (cidr_mask p (addr_bits ip)) /\ shows r ip p /\
    get_prefix r = Some (re_net e) /\ j_len r = re_maxlen e /\ p <= j_len r <= addr_bits ip /\
    j_asn r = str "AS" ++ dec (roa_asn x) /\
    get_asn2 r = if (0 <=? roa_asn x) && (roa_asn x <? 2 ^ 32) then Some (roa_asn x) else None.
Proof.
  intros P D G r I. destruct (exported_from _ _ _ _ _ _ _ _ P G r I) as (j & q & x & l & e & Q & RN & VR & V & IE & IR & -> & _).
  pose proof (D q (nth_error_In _ _ Q)) as DQ.
  destruct (valids_shape q x l e RN VR V IE (decoded_rejects q RN DQ) (proj2 (proj2 DQ))) as (ip & p & S1 & S2 & S3 & S4 & S5).
  destruct (entry_shows (tal_name names paths j) (roa_asn x) e ip p S1 S2 S3 S4) as (SH & LN).
  destruct (exported_read (tal_name names paths j) (roa_asn x) e ip p S1 S2 S3 S4) as (ip' & E1 & E2 & E3 & E4 & E5 & E6).
  exists j, q, x, e, ip, p. rewrite LN.
  assert (ip' = ip) as ->.
  { unfold first_addr in E4. rewrite S5, Z.sub_0_r in E4. rewrite !addr_val_bval in E4.
    apply bval_inj; auto. apply S1. }
  rewrite S3. auto 15.
Qed.
End Runs.
