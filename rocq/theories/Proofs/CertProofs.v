From Coq Require Import Lia ZifyBool ZifyNat Permutation.
From Verif.Model Require Import Base NetIP CertRes Roa.
From Verif.Spec Require Import Addr Resources.
From Verif.Proofs Require Import NetIPProofs.
Ltac Zify.zify_post_hook ::= Z.div_mod_to_equations.

Lemma plain_not_mapped a : plain_addr a -> not_mapped a.
Proof. intros (_ & _ & H). exact H. Qed.

(** * C15 membership *)
Lemma denotes_member i fam lo hi a :
  denotes i fam lo hi -> bytes_ok a = true -> not_mapped a ->
  exists b, is_ip_in_range i a = Ret (b, false) /\
            (b = true <-> length a = fam /\ lo <= addr_val a <= hi).
Proof.
  intros Hd Ha Hm. destruct Hd as [ip p (Hok & Hf & Hnm) Hp | mn mx (O1 & F1 & N1) (O2 & F2 & N2) Hl].
  - eexists. split; [reflexivity|].
    apply net_contains_spec; auto.
  - cbn [is_ip_in_range].
    destruct (Nat.eqb_spec (length a) (length mn)) as [E1|E1]; cbn [negb orb].
    + destruct (Nat.eqb_spec (length a) (length mx)) as [E2|E2]; cbn [negb orb]; [|lia].
      eexists. split; [reflexivity|].
      rewrite !bytes_compare_num by auto. rewrite !addr_val_bval.
      destruct (bval a <? bval mn) eqn:A1; destruct (bval mn <? bval a) eqn:A2;
      destruct (bval a <? bval mx) eqn:A3; destruct (bval mx <? bval a) eqn:A4; cbn; lia.
    + eexists. split; [reflexivity|]. split; [discriminate|]. lia.
Qed.

Lemma inherits_member i fam a : inherits i fam -> plain_addr a ->
  is_ip_in_range i a = Ret (false, Nat.eqb (length a) fam).
Proof.
  intros Hi (Hok & Hf & Hm). destruct Hi; cbn [is_ip_in_range Z.eqb Pos.eqb].
  - destruct Hf as [H|H].
    + rewrite to4_len4 by assumption. rewrite H. reflexivity.
    + rewrite to4_not_mapped by assumption. rewrite H. reflexivity.
  - destruct Hf as [H|H].
    + rewrite to4_len4 by assumption. rewrite H. reflexivity.
    + rewrite to4_not_mapped by assumption. unfold to16. rewrite H. reflexivity.
Qed.

Lemma cidr_mask_inj ip p p' : plain_addr ip -> 0 <= p <= addr_bits ip -> 0 <= p' <= addr_bits ip ->
  cidr_mask p (addr_bits ip) = cidr_mask p' (addr_bits ip) -> p = p'.
Proof.
  intros (O & F & N) Hp Hp' E. unfold addr_bits in *.
  rewrite !cidr_mask_ok in E by (auto; lia).
  destruct (range_loop_spec ip p O ltac:(lia)) as (lo & hi & R & _ & _ & _ & _ & V1 & V2).
  destruct (range_loop_spec ip p' O ltac:(lia)) as (lo' & hi' & R' & _ & _ & _ & _ & V1' & V2').
  rewrite E in R. rewrite R' in R. injection R as -> ->.
  unfold last_addr in *. rewrite V1 in V1'.
  assert (E2 : 2 ^ (8 * Z.of_nat (length ip) - p) = 2 ^ (8 * Z.of_nat (length ip) - p')) by lia.
  apply Z.pow_inj_r in E2; lia.
Qed.

Lemma denotes_fun i f1 l1 h1 f2 l2 h2 :
  denotes i f1 l1 h1 -> denotes i f2 l2 h2 -> f1 = f2 /\ l1 = l2 /\ h1 = h2.
Proof.
  intros H1 H2. destruct H1 as [ip p Hpl Hp|mn mx H1 H1' Hl].
  - inversion H2 as [ip' p' Hpl' Hp' E|]; subst.
    match goal with H : cidr_mask _ _ = cidr_mask _ _ |- _ => apply cidr_mask_inj in H; auto; subst end. auto.
  - inversion H2; subst. auto.
Qed.

(** * C17/C6: a range against a certificate's list *)
(** Full meaning of the answer for a non-empty interval [mn..mx]. *)
Lemma is_ip_range_in_spec l : forall mn mx,
  wf_list l -> plain_addr mn -> plain_addr mx -> length mn = length mx ->
  exists b c, is_ip_range_in l mn mx = Ret (b, c) /\
    (b = true -> exists i lo hi, In i l /\ denotes i (length mn) lo hi /\
                 lo <= addr_val mn <= hi /\ lo <= addr_val mx <= hi) /\
    (c = true -> exists i, In i l /\ inherits i (length mn)) /\
    (b = true -> c = false) /\
    (b = false -> c = false -> forall i, In i l ->
        ~ inherits i (length mn) /\
        forall lo hi, denotes i (length mn) lo hi ->
          ~ (lo <= addr_val mn <= hi /\ lo <= addr_val mx <= hi)).
Proof.
  induction l as [|i l IH]; intros mn mx Hwf Hmn Hmx Hl.
  - exists false, false. cbn. repeat split; try discriminate; contradiction.
  - inversion Hwf as [|? ? Hi Hwf']; subst.
    destruct (IH mn mx Hwf' Hmn Hmx Hl) as (b & c & E & Hb & Hc & Hbc & Hn). clear IH.
    cbn [is_ip_range_in].
    destruct Hi as [(fam & lo & hi & Hd) | (fam & Hh)].
    + destruct (denotes_member i fam lo hi mn Hd ltac:(apply Hmn) (plain_not_mapped _ Hmn)) as (b1 & E1 & H1).
      destruct (denotes_member i fam lo hi mx Hd ltac:(apply Hmx) (plain_not_mapped _ Hmx)) as (b2 & E2 & H2).
      rewrite E1, E2. cbn [gbind orb].
      destruct (b1 && b2) eqn:B.
      * exists true, false. apply andb_true_iff in B as [-> ->].
        assert (Q1 : length mn = fam /\ lo <= addr_val mn <= hi) by (apply H1; reflexivity).
        assert (Q2 : length mx = fam /\ lo <= addr_val mx <= hi) by (apply H2; reflexivity).
        split; [reflexivity|]. repeat split; try discriminate.
        intros _. exists i, lo, hi. destruct Q1 as [<- Q1]. destruct Q2 as [_ Q2].
        repeat split; auto; try lia. left; reflexivity.
      * exists b, c. split; [exact E|]. split; [|split; [|split]].
        -- intros Hbt. destruct (Hb Hbt) as (j & l' & h' & Hin & R). exists j, l', h'. split; [right; exact Hin|exact R].
        -- intros Hct. destruct (Hc Hct) as (j & Hin & R). exists j. split; [right; exact Hin|exact R].
        -- exact Hbc.
        -- intros Hbf Hcf j [<-|Hin]; [|apply (Hn Hbf Hcf _ Hin)].
           split; [intros Hx; inversion Hx; subst; inversion Hd|].
           intros l' h' Hd' [Q1 Q2].
           destruct (denotes_member i _ l' h' mn Hd' ltac:(apply Hmn) (plain_not_mapped _ Hmn)) as (b1' & E1' & H1').
           destruct (denotes_member i _ l' h' mx Hd' ltac:(apply Hmx) (plain_not_mapped _ Hmx)) as (b2' & E2' & H2').
           rewrite E1 in E1'. rewrite E2 in E2'. injection E1' as <-. injection E2' as <-.
           rewrite (proj2 H1'), (proj2 H2') in B by (split; auto; lia). discriminate.
    + rewrite (inherits_member i fam mn Hh Hmn), (inherits_member i fam mx Hh Hmx).
      cbn [gbind andb]. rewrite <- Hl.
      destruct (Nat.eqb_spec (length mn) fam) as [Ef|Ef]; cbn [orb].
      * exists false, true. split; [reflexivity|]. repeat split; try discriminate.
        intros _. exists i. split; [left; reflexivity|]. rewrite Ef. exact Hh.
      * exists b, c. split; [exact E|]. split; [|split; [|split]].
        -- intros Hbt. destruct (Hb Hbt) as (j & l' & h' & Hin & R). exists j, l', h'. split; [right; exact Hin|exact R].
        -- intros Hct. destruct (Hc Hct) as (j & Hin & R). exists j. split; [right; exact Hin|exact R].
        -- exact Hbc.
        -- intros Hbf Hcf j [<-|Hin]; [|apply (Hn Hbf Hcf _ Hin)].
           split.
           ++ intros Hx. apply Ef. inversion Hx as [Q1 Q2|Q1 Q2]; rewrite <- Q1 in Hh; inversion Hh; congruence.
           ++ intros l' h' Hd'. inversion Hh; subst; inversion Hd'.
Qed.

(** * Bounds of an element *)
Lemma plain_of_bval a fam : length a = fam -> bytes_ok a = true -> (fam = 4 \/ fam = 16)%nat ->
  (fam = 16%nat -> ~ v4mapped (addr_val a)) -> plain_addr a.
Proof. intros <- H1 H2 H3. repeat split; auto. Qed.

Lemma denotes_family i fam lo hi : denotes i fam lo hi -> (fam = 4 \/ fam = 16)%nat.
Proof. intros H. destruct H as [ip p (_ & F & _) _|mn mx (_ & F & _) _ _]; exact F. Qed.

Lemma denotes_range i fam lo hi : denotes i fam lo hi -> plain_bounds fam lo hi ->
  exists mn mx, ip_get_range i = Ret (mn, mx, false) /\ plain_addr mn /\ plain_addr mx /\
    length mn = fam /\ length mx = fam /\ addr_val mn = lo /\ addr_val mx = hi.
Proof.
  intros Hd [Hle Hpb]. pose proof (denotes_family _ _ _ _ Hd) as Hfam.
  destruct Hd as [ip p (Hok & Hf & Hnm) Hp | mn mx Hmn Hmx Hl].
  - unfold addr_bits in *. rewrite cidr_mask_ok by auto.
    destruct (range_loop_spec ip p Hok Hp) as (lo & hi & E & L1 & L2 & O1 & O2 & V1 & V2).
    exists lo, hi. cbn [ip_get_range]. unfold get_range_ip. cbn [nip nmask]. rewrite E.
    rewrite !addr_val_bval in *. rewrite V1, V2.
    repeat split; auto; try (rewrite L1 || rewrite L2; assumption).
    + intros H16. rewrite addr_val_bval, V1. apply Hpb. lia.
    + intros H16. rewrite addr_val_bval, V2. apply Hpb. lia.
  - exists mn, mx. cbn. repeat split; auto; try apply Hmn; try apply Hmx.
Qed.

(** * C17: classification *)
Lemma validate_ip_list_perm l parent : forall v iv c,
  validate_ip_list l parent = Ret (v, iv, c) -> Permutation l (v ++ iv ++ c).
Proof.
  induction l as [|i l IH]; intros v iv c H; cbn [validate_ip_list] in H.
  - injection H as <- <- <-. constructor.
  - destruct (ip_get_range i) as [[[mn mx] cp]|]; cbn [gbind] in H; [|discriminate].
    destruct cp.
    + destruct (validate_ip_list l parent) as [[[v' iv'] c']|]; cbn [gbind] in H; [|discriminate].
      injection H as <- <- <-. cbn. constructor. apply IH. reflexivity.
    + destruct (is_ip_range_in parent mn mx) as [[valid check]|]; cbn [gbind] in H; [|discriminate].
      destruct (validate_ip_list l parent) as [[[v' iv'] c']|]; cbn [gbind] in H; [|discriminate].
      specialize (IH _ _ _ eq_refl).
      destruct valid; [|destruct check]; injection H as <- <- <-.
      * cbn. constructor. exact IH.
      * rewrite IH. rewrite !app_assoc. apply Permutation_middle.
      * rewrite IH. cbn. apply Permutation_middle.
Qed.

Lemma validate_ip_list_spec l parent :
  wf_list parent -> Forall wf_claim l ->
  exists v iv c, validate_ip_list l parent = Ret (v, iv, c) /\
    (forall i, In i v -> (exists fam, inherits i fam) \/
       exists fam lo hi, denotes i fam lo hi /\ covered parent fam lo hi) /\
    (forall i, In i c -> exists fam lo hi, denotes i fam lo hi /\ inherited parent fam) /\
    (forall i, In i iv -> exists fam lo hi, denotes i fam lo hi /\
       ~ covered parent fam lo hi /\ ~ inherited parent fam).
Proof.
  intros Hp Hl. induction Hl as [|i l Hi Hl IH].
  - exists [], [], []. cbn. repeat split; contradiction.
  - destruct IH as (v & iv & c & E & Hv & Hc & Hiv).
    cbn [validate_ip_list]. destruct Hi as [(fam & Hh)|(fam & lo & hi & Hd & Hpb)].
    + assert (E0 : ip_get_range i = Ret ([], [], true)) by (destruct Hh; reflexivity).
      rewrite E0. cbn [gbind]. rewrite E. cbn [gbind].
      exists (i :: v), iv, c. split; [reflexivity|]. repeat split; auto.
      intros j [<-|Hj]; [left; exists fam; exact Hh|auto].
    + destruct (denotes_range _ _ _ _ Hd Hpb) as (mn & mx & E0 & P1 & P2 & L1 & L2 & V1 & V2).
      rewrite E0. cbn [gbind].
      destruct (is_ip_range_in_spec parent mn mx Hp P1 P2 ltac:(lia)) as (b & ck & E1 & S1 & S2 & S3 & S4).
      rewrite E1. cbn [gbind]. rewrite E. cbn [gbind]. rewrite L1, V1, V2 in *.
      destruct b.
      * exists (i :: v), iv, c. split; [reflexivity|]. repeat split; auto.
        intros j [<-|Hj]; [|auto]. right. exists fam, lo, hi. split; [exact Hd|].
        destruct (S1 eq_refl) as (e & lo' & hi' & He & Hde & Q1 & Q2).
        exists e, lo', hi'. repeat split; auto; lia.
      * destruct ck.
        -- exists v, iv, (i :: c). split; [reflexivity|]. repeat split; auto.
           intros j [<-|Hj]; [|auto]. exists fam, lo, hi. split; [exact Hd|]. exact (S2 eq_refl).
        -- exists v, (i :: iv), c. split; [reflexivity|]. repeat split; auto.
           intros j [<-|Hj]; [|auto]. exists fam, lo, hi. split; [exact Hd|]. split.
           ++ intros (e & lo' & hi' & He & Hde & Q1 & Q2).
              destruct (S4 eq_refl eq_refl e He) as [_ S]. apply (S lo' hi' Hde).
              destruct Hpb as [Hle _]. lia.
           ++ intros (e & He & Hie). destruct (S4 eq_refl eq_refl e He) as [S _]. contradiction.
Qed.

(** * C18: AS numbers *)
Lemma is_as_range_in_spec l lo hi : lo <= hi ->
  exists b c, is_as_range_in l lo hi = (b, c) /\
    (b = true -> as_covered l lo hi) /\
    (c = true -> In ASNull l) /\
    (b = false -> c = false -> ~ as_covered l lo hi /\ ~ In ASNull l) /\
    (b = true -> c = false).
Proof.
  intros Hle. induction l as [|e l IH].
  - exists false, false. cbn. repeat split; try discriminate; auto.
    intros (e & a & b & [] & _).
  - destruct IH as (b & c & E & Hb & Hc & Hn & Hbc). cbn [is_as_range_in].
    destruct e as [x y|x|]; cbn [is_asn_in_range].
    + destruct ((x <=? lo) && (lo <=? y) && ((x <=? hi) && (hi <=? y))) eqn:B.
      * exists true, false. repeat split; try discriminate.
        intros _. exists (ASRange x y), x, y. repeat split; [left; reflexivity|constructor|lia|lia].
      * cbn [orb]. exists b, c. split; [exact E|]. (split; [|split; [|split]]).
        -- intros Hbt. destruct (Hb Hbt) as (e & u & w & Hin & R). exists e, u, w. split; [right; exact Hin|exact R].
        -- intros Hct. right. auto.
        -- intros Hbf Hcf. destruct (Hn Hbf Hcf) as [N1 N2]. split.
           ++ intros (e & u & w & [<-|Hin] & Hd & R).
              ** inversion Hd; subst. lia.
              ** apply N1. exists e, u, w. auto.
           ++ intros [Q|Q]; [discriminate|]. contradiction.
        -- exact Hbc.
    + destruct ((lo =? x) && (hi =? x)) eqn:B.
      * exists true, false. repeat split; try discriminate.
        intros _. exists (ASNum x), x, x. repeat split; [left; reflexivity|constructor|lia|lia].
      * cbn [orb]. exists b, c. split; [exact E|]. (split; [|split; [|split]]).
        -- intros Hbt. destruct (Hb Hbt) as (e & u & w & Hin & R). exists e, u, w. split; [right; exact Hin|exact R].
        -- intros Hct. right. auto.
        -- intros Hbf Hcf. destruct (Hn Hbf Hcf) as [N1 N2]. split.
           ++ intros (e & u & w & [<-|Hin] & Hd & R).
              ** inversion Hd; subst. lia.
              ** apply N1. exists e, u, w. auto.
           ++ intros [Q|Q]; [discriminate|]. contradiction.
        -- exact Hbc.
    + cbn. exists false, true. repeat split; try discriminate. intros _. left. reflexivity.
Qed.

Lemma validate_as_list_perm l parent : forall v iv c,
  validate_as_list l parent = (v, iv, c) -> Permutation l (v ++ iv ++ c).
Proof.
  induction l as [|i l IH]; intros v iv c H; cbn [validate_as_list] in H.
  - injection H as <- <- <-. constructor.
  - destruct (as_get_range i) as [[mn mx] cp].
    destruct (validate_as_list l parent) as [[v' iv'] c']. specialize (IH _ _ _ eq_refl).
    destruct cp; [injection H as <- <- <-; cbn; constructor; exact IH|].
    destruct (is_as_range_in parent mn mx) as [valid check].
    destruct valid; [|destruct check]; injection H as <- <- <-.
    + cbn. constructor. exact IH.
    + rewrite IH. rewrite !app_assoc. apply Permutation_middle.
    + rewrite IH. cbn. apply Permutation_middle.
Qed.

Lemma validate_as_list_spec l parent : Forall as_claim l ->
  forall v iv c, validate_as_list l parent = (v, iv, c) ->
    (forall i, In i v -> i = ASNull \/ exists lo hi, as_denotes i lo hi /\ as_covered parent lo hi) /\
    (forall i, In i c -> In ASNull parent /\ exists lo hi, as_denotes i lo hi) /\
    (forall i, In i iv -> exists lo hi, as_denotes i lo hi /\ ~ as_covered parent lo hi /\ ~ In ASNull parent).
Proof.
  intros Hl. induction Hl as [|i l Hi Hl IH]; intros v iv c H; cbn [validate_as_list] in H.
  - injection H as <- <- <-. cbn. repeat split; contradiction.
  - destruct (validate_as_list l parent) as [[v' iv'] c'] eqn:E.
    destruct (IH _ _ _ eq_refl) as (Hv & Hc & Hiv).
    destruct i as [x y|x|]; cbn [as_get_range] in H.
    + assert (Hd : as_denotes (ASRange x y) x y) by constructor.
      destruct (is_as_range_in_spec parent x y (Hi _ _ Hd)) as (b & ck & E1 & S1 & S2 & S3 & S4).
      rewrite E1 in H. destruct b; [|destruct ck]; injection H as <- <- <-; (split; [|split]); auto;
        intros j [<-|Hj]; auto.
      * right. exists x, y. auto.
      * split; [auto|]. exists x, y. exact Hd.
      * exists x, y. destruct (S3 eq_refl eq_refl). auto.
    + assert (Hd : as_denotes (ASNum x) x x) by constructor.
      destruct (is_as_range_in_spec parent x x (Hi _ _ Hd)) as (b & ck & E1 & S1 & S2 & S3 & S4).
      rewrite E1 in H. destruct b; [|destruct ck]; injection H as <- <- <-; (split; [|split]); auto;
        intros j [<-|Hj]; auto.
      * right. exists x, x. auto.
      * split; [auto|]. exists x, x. exact Hd.
      * exists x, x. destruct (S3 eq_refl eq_refl). auto.
    + injection H as <- <- <-. (split; [|split]); auto. intros j [<-|Hj]; auto.
Qed.

Lemma is_as_range_in_exact l lo hi : lo <= hi -> ~ In ASNull l ->
  (is_as_range_in l lo hi = (true, false) <-> as_covered l lo hi).
Proof.
  intros Hle Hn. destruct (is_as_range_in_spec l lo hi Hle) as (b & c & E & Hb & Hc & Hnn & Hbc).
  rewrite E. split.
  - intros H. injection H as -> ->. auto.
  - intros Hcov. destruct c; [exfalso; auto|]. destruct b; [reflexivity|].
    destruct (Hnn eq_refl eq_refl). contradiction.
Qed.
