(** What is returned, in terms of addresses. *)
From Coq Require Import List ZArith Lia Bool Permutation String.
From Verif.Model Require Import Base Str Tal TalText Paths SubMap.
From Verif.Spec Require Import SubMapSpec.
From Verif.Proofs Require Import StrProofs PathProofs SubMapProofs.
Import ListNotations.
Open Scope Z_scope.

Definition clean (p : list bytes) : Prop := p <> [] /\ Forall (fun c => ~ In slash c) p.
Definition addr_of (p : list bytes) : bytes := str "rsync://" ++ join [slash] p.
Definition comps (a : bytes) : list bytes := split_on slash (skipn 8 a).

Lemma join_text : forall p, p <> [] -> slash :: join [slash] p = concat (map (cons slash) p).
Proof.
  intros p. induction p as [|s p IH]; intros H; [now elim H|]. destruct p as [|y p].
  - cbn. now rewrite app_nil_r.
  - change (join [slash] (s :: y :: p)) with (s ++ [slash] ++ join [slash] (y :: p)). cbn [map concat app]. f_equal. f_equal. apply IH. discriminate.
Qed.
Lemma text_addr : forall p, p <> [] -> text (str "rsync:/") p = addr_of p.
Proof. intros p H. unfold text, addr_of. rewrite <- join_text by exact H. reflexivity. Qed.
Lemma join_app : forall p q, p <> [] -> q <> [] -> join [slash] (p ++ q) = join [slash] p ++ slash :: join [slash] q.
Proof.
  intros p. induction p as [|s p IH]; intros q H1 H2; [now elim H1|]. destruct p as [|y p].
  - cbn [app]. destruct q as [|x q]; [now elim H2|]. reflexivity.
  - cbn [app]. change (join [slash] (s :: y :: p ++ q)) with (s ++ [slash] ++ join [slash] ((y :: p) ++ q)).
    rewrite IH by (auto; discriminate). change (join [slash] (s :: y :: p)) with (s ++ [slash] ++ join [slash] (y :: p)). rewrite <- !app_assoc. reflexivity.
Qed.
Lemma comps_scheme : forall s, comps (str "rsync://" ++ s) = split_on slash s.
Proof. reflexivity. Qed.
Lemma comps_clean : forall a, clean (comps a).
Proof. intros a. split; [apply split_nonempty|apply split_clean]. Qed.
Lemma comps_addr : forall p, clean p -> comps (addr_of p) = p.
Proof. intros p (N & F). unfold addr_of. rewrite comps_scheme. apply split_join; assumption. Qed.
Lemma addr_comps : forall s, addr_of (comps (str "rsync://" ++ s)) = str "rsync://" ++ s.
Proof. intros s. rewrite comps_scheme. unfold addr_of. rewrite join_split. reflexivity. Qed.
Lemma clean_prefix : forall p q, p <> [] -> clean (p ++ q) -> clean p.
Proof. intros p q N (_ & F). split; [exact N|]. apply Forall_app in F. tauto. Qed.
Lemma addr_inj : forall p q, clean p -> clean q -> addr_of p = addr_of q -> p = q.
Proof. intros p q P Q E. rewrite <- (comps_addr p P), <- (comps_addr q Q), E. reflexivity. Qed.
Lemma below_ext : forall p l, clean p -> clean l -> (below (addr_of p) (addr_of l) <-> extends p l).
Proof.
  intros p l P L. split.
  - intros [E|(r & E)].
    + apply addr_inj in E; [|assumption..]. subst. exists []. now rewrite app_nil_r.
    + exists (split_on slash r). rewrite <- (comps_addr l L), E. unfold addr_of. rewrite <- app_assoc, comps_scheme.
      change 47 with slash. rewrite split_app_sep. f_equal. destruct P as (P1 & P2). apply split_join; assumption.
  - intros (q & ->). destruct q as [|x q]; [left; now rewrite app_nil_r|]. right. exists (join [slash] (x :: q)).
    unfold addr_of. rewrite join_app by (try discriminate; exact (proj1 P)). rewrite <- app_assoc. reflexivity.
Qed.

Section Items.
Variable order : nat -> entries -> entries.
Hypothesis order_perm : forall n m, Permutation (order n m) m.
Variable items : list bytes.

Definition accepted (a : bytes) : bool := (8 <? Z.of_nat (length a)) && has_prefix a rsync_scheme.
Lemma accepted_spec : forall a, accepted a = true <-> an_address a.
Proof.
  intros a. unfold accepted, an_address. rewrite andb_true_iff, has_prefix_spec, Z.ltb_lt. split.
  - intros (L & s & ->). exists s. split; [|reflexivity]. intros ->. rewrite app_nil_r in L. cbn in L. lia.
  - intros (s & N & ->). split; [|exists s; reflexivity]. rewrite app_length. destruct s; [now elim N|]. cbn [length]. change (length (str "rsync://")) with 8%nat. lia.
Qed.
Definition lists (l : list bytes) : list (list bytes) := map comps (filter accepted l).
Definition made_of (l : list bytes) : entries := fold_left (fun m i => add_in_map i m) l [].
Lemma made_build : made_of items = build (lists items).
Proof.
  unfold made_of, build, lists. generalize (@nil (bytes * submap)) as m. induction items as [|i l IH]; intros m; [reflexivity|].
  cbn [fold_left filter]. rewrite IH. unfold add_in_map. fold (accepted i). destruct (accepted i); reflexivity.
Qed.
Lemma lists_clean : forall l k, In k (lists l) -> clean k.
Proof. intros l k I. apply in_map_iff in I as (a & <- & _). apply comps_clean. Qed.
Lemma lists_in : forall l k, In k (lists l) <-> exists s, s <> [] /\ In (str "rsync://" ++ s) l /\ k = split_on slash s.
Proof.
  intros l k. unfold lists. rewrite in_map_iff. split.
  - intros (a & <- & I). apply filter_In in I as (I & A). apply accepted_spec in A as (s & N & ->). exists s. auto.
  - intros (s & N & I & ->). exists (str "rsync://" ++ s). split; [reflexivity|]. apply filter_In. split; [exact I|]. apply accepted_spec. exists s. auto.
Qed.
(** Elements of [items] below [p] are those that extend it. *)
Lemma below_item : forall p z, clean p -> p <> [[]] -> (below (addr_of p) z <-> exists k, clean k /\ z = addr_of k /\ extends p k /\ accepted z = true).
Proof.
  intros p z P NE. split.
  - intros B. assert (exists s, s <> [] /\ z = str "rsync://" ++ s) as (s & NS & ->).
    { destruct B as [->|(r & ->)].
      - exists (join [slash] p). split; [|reflexivity]. intros E. apply NE. destruct P as (P1 & P2). rewrite <- (split_join slash p P1 P2), E. reflexivity.
      - exists (join [slash] p ++ 47 :: r). split; [destruct (join [slash] p); discriminate|]. unfold addr_of. now rewrite <- app_assoc. }
    exists (comps (str "rsync://" ++ s)). split; [apply comps_clean|]. split; [symmetry; apply addr_comps|].
    split; [apply below_ext; [exact P|apply comps_clean|rewrite addr_comps; exact B]|]. apply accepted_spec. exists s. auto.
  - intros (k & K & -> & E & _). apply below_ext; assumption.
Qed.

Variable r : list bytes.
Hypothesis reduced : reduce_map order (made_of items) = Some r.

Lemma returned : forall x, In x r <-> exists p, clean p /\ x = addr_of p /\ through (build (lists items)) 0 p.
Proof.
  intros x. rewrite (reduce_results order order_perm _ _ reduced x), made_build. split.
  - intros H. destruct (result_through _ _ _ _ H (build_tidy _)) as (p & N & -> & T). exists p. rewrite text_addr by exact N. split; [|auto].
    destruct T as (v & E & _). assert (S : at_path (build (lists items)) p <> None) by congruence.
    apply build_some in S as (l & I & q & ->); [|exact N]. apply lists_clean in I. eapply clean_prefix; eauto.
  - intros (p & P & -> & T). rewrite <- text_addr by exact (proj1 P). apply through_result; [exact (proj1 P)|exact T].
Qed.

Theorem returned_above : forall x, In x r -> (exists h m, x = str "rsync://" ++ h ++ 47 :: m) /\ exists i, In i items /\ below x i.
Proof.
  intros x I. apply returned in I as (p & P & -> & v & E & G & _).
  assert (S : at_path (build (lists items)) p <> None) by congruence. apply build_some in S as (l & I & X); [|exact (proj1 P)]. split.
  - destruct p as [|h [|m p]]; [now elim (proj1 P)| |].
    + exfalso. cbn [length] in G. unfold goes_on in G. destruct v. replace (0 + 1 - 1)%nat with 0%nat in G by lia. rewrite orb_true_r in G. discriminate.
    + exists h, (join [slash] (m :: p)). reflexivity.
  - apply lists_in in I as (s & NS & I & ->). exists (str "rsync://" ++ s). split; [exact I|].
    rewrite <- (addr_comps s), comps_scheme. apply below_ext; [exact P|apply (comps_clean (str "rsync://" ++ s))|exact X].
Qed.
Theorem returned_apart : forall x y, In x r -> In y r -> below x y -> x = y.
Proof.
  intros x y I J B. apply returned in I as (p & P & -> & v & E & G & _). apply returned in J as (q & Q & -> & w & E' & G' & A).
  apply below_ext in B; [|assumption..]. destruct B as (t & ->). destruct t as [|c t]; [now rewrite app_nil_r|].
  destruct (A p (c :: t) eq_refl (proj1 P) ltac:(discriminate)) as (u & EU & GU). rewrite E in EU. injection EU as <-. congruence.
Qed.

(** *** Coverage *)
Lemma first_items : forall p y, clean p -> p <> [[]] -> (first_through (lists items) p y <->
  exists a b, items = a ++ addr_of y :: b /\ clean y /\ extends p y /\ forall z, In z a -> ~ below (addr_of p) z).
Proof.
  intros p y P NE. split.
  - intros (a & b & E & X & F). clear reduced. unfold lists in E. revert a E F. induction items as [|i l IH]; intros a E F; cbn [filter map] in E; [now apply app_cons_not_nil in E|].
    destruct (accepted i) eqn:A.
    + cbn [map] in E. apply accepted_spec in A as (s & NS & ->). destruct a as [|k a]; injection E as E1 E2.
      * exists [], l. assert (EA : addr_of y = str "rsync://" ++ s) by (rewrite <- E1; apply addr_comps). rewrite EA. split; [reflexivity|]. split; [rewrite <- E1; apply comps_clean|]. split; [exact X|intros z []].
      * destruct (IH a E2) as (a' & b' & -> & Y & _ & F'); [intros z I; apply F; now right|].
        exists ((str "rsync://" ++ s) :: a'), b'. split; [reflexivity|]. split; [exact Y|]. split; [exact X|]. intros z [<-|I]; [|auto].
        intros B. rewrite <- (addr_comps s) in B. apply below_ext in B; [|exact P|apply comps_clean]. apply (F k); [now left|]. rewrite <- E1. exact B.
    + destruct (IH a E F) as (a' & b' & -> & Y & _ & F'). exists (i :: a'), b'. split; [reflexivity|]. split; [exact Y|]. split; [exact X|].
      intros z [<-|I]; [|auto]. intros B. apply below_item in B as (k & K & -> & _ & AC); [|assumption..]. congruence.
  - intros (a & b & -> & Y & X & F). exists (lists a), (lists b). split.
    + unfold lists. rewrite filter_app, map_app. cbn [filter].
      assert (AC : accepted (addr_of y) = true).
      { assert (B : below (addr_of p) (addr_of y)) by (apply below_ext; assumption). apply below_item in B as (k & _ & _ & _ & AC); assumption. }
      rewrite AC. cbn [map]. rewrite comps_addr by exact Y. reflexivity.
    + split; [exact X|]. intros z I XZ. pose proof (lists_clean _ _ I) as Z. apply lists_in in I as (s & NS & I & ->).
      apply (F _ I). rewrite <- (addr_comps s). apply below_ext; [exact P|apply comps_clean|exact XZ].
Qed.

Lemma goes_spec : forall p sm c, clean p -> at_path (build (lists items)) p = Some (Sub sm c) ->
  (goes_on (Sub sm c) (0 + length p - 1) = true <-> gone_through items (addr_of p)).
Proof.
  intros p sm c P E. destruct p as [|h [|m p]]; [now elim (proj1 P)| |].
  - split; [|intros _; cbn [goes_on length]; apply orb_true_r]. intros _. left. exists h. split; [reflexivity|].
    destruct P as (_ & F). inversion F. assumption.
  - remember (h :: m :: p) as l eqn:EL. assert (NE : l <> [[]]) by (subst; discriminate).
    assert (NL : Nat.ltb (0 + length l - 1) 1 = false) by (subst; cbn [length]; apply Nat.ltb_ge; lia).
    unfold goes_on. rewrite NL, orb_false_r, andb_true_iff, Nat.eqb_eq, Z.eqb_eq.
    pose proof (build_at (lists items) l (proj1 P)) as B. rewrite E in B. destruct B as (ND & y & FT & C).
    assert (KEY : forall s, sub_get s sm = at_path (build (lists items)) (l ++ [s])) by (intros s; rewrite at_snoc by exact (proj1 P); rewrite E; reflexivity).
    assert (NOTONE : ~ exists h0, addr_of l = str "rsync://" ++ h0 /\ ~ In 47 h0).
    { intros (h0 & E1 & N). unfold addr_of in E1. apply app_inv_head in E1. apply N. rewrite <- E1, EL. apply in_or_app. right. now left. }
    split.
    + intros (L1 & ->). right. split.
      * apply (first_items l y P NE) in FT as (a & b & EI & Y & X & F). destruct C as [(_ & C)|(N & _)]; [discriminate|].
        exists a, (addr_of y), b. split; [exact EI|]. split; [apply below_ext; assumption|]. split; [|exact F]. intros EA. apply N. now apply addr_inj.
      * destruct sm as [|[n v] [|]]; try discriminate L1. exists n.
        assert (EX : exists k, In k (lists items) /\ extends (l ++ [n]) k).
        { apply build_some; [destruct l; discriminate|]. rewrite <- KEY. cbn [sub_get]. rewrite beq_refl. discriminate. }
        assert (CL : clean (l ++ [n])).
        { destruct EX as (k & I & q & ->). apply lists_clean in I. eapply clean_prefix; [destruct l; discriminate|exact I]. }
        split; [destruct CL as (_ & CL); apply Forall_app in CL as (_ & CL); inversion CL; assumption|].
        intros z I BZ NZ. replace (addr_of l ++ 47 :: n) with (addr_of (l ++ [n])) by (unfold addr_of; rewrite join_app by (try discriminate; exact (proj1 P)); rewrite <- app_assoc; reflexivity).
        apply below_item in BZ as (k & K & -> & (q & ->) & AC); [|assumption..]. apply below_ext; [exact CL|exact K|].
        destruct q as [|x q]; [elim NZ; now rewrite app_nil_r|]. exists q. rewrite <- app_assoc. cbn [app]. f_equal. f_equal.
        assert (S : at_path (build (lists items)) (l ++ [x]) <> None).
        { apply build_some; [destruct l; discriminate|]. exists (l ++ x :: q). split; [|exists q; now rewrite <- app_assoc].
          apply lists_in. exists (join [slash] (l ++ x :: q)). pose proof AC as AC'. apply accepted_spec in AC as (s & NS & ES). unfold addr_of in ES. apply app_inv_head in ES.
          split; [now rewrite ES|]. split; [exact I|]. symmetry. destruct K as (K1 & K2). apply split_join; assumption. }
        rewrite <- KEY in S. cbn [sub_get] in S. destruct (beq x n) eqn:BX; [now apply beq_eq in BX|now elim S].
    + intros [H|((a & z & b & EI & BZ & NZ & F) & (n & NN & SN))]; [elim NOTONE; exact H|].
      apply below_item in BZ as (k & K & -> & X & AC); [|assumption..].
      assert (FK : first_through (lists items) l k) by (apply first_items; [assumption..|]; exists a, b; auto).
      assert (KY : k = y).
      { destruct FK as (a1 & b1 & E1 & X1 & F1). destruct FT as (a2 & b2 & E2 & X2 & F2). rewrite E1 in E2. clear - E2 X1 F1 X2 F2. revert a2 E2 F2.
        induction a1 as [|u a1 IH]; intros [|w a2] E2 F2; cbn [app] in E2; injection E2 as E2 E3.
        - exact E2.
        - exfalso. apply (F2 w); [now left|]. rewrite <- E2. exact X1.
        - exfalso. apply (F1 u); [now left|]. rewrite E2. exact X2.
        - apply (IH ltac:(intros; apply F1; now right) a2 E3). intros; apply F2; now right. }
      subst k. split.
      * assert (IN : forall s, In s (map fst sm) -> s = n).
        { intros s IS. assert (S : sub_get s sm <> None) by (intros G; apply get_none in G; contradiction). rewrite KEY in S.
          apply build_some in S as (k & I & q & ->); [|destruct l; discriminate]. pose proof (lists_clean _ _ I) as KC.
          apply lists_in in I as (t & NT & I & ET). assert (EA : str "rsync://" ++ t = addr_of ((l ++ [s]) ++ q)).
          { unfold addr_of. rewrite ET, join_split. reflexivity. }
          assert (BN : below (addr_of l ++ 47 :: n) (addr_of ((l ++ [s]) ++ q))).
          { rewrite <- EA. apply (SN _ I).
            - rewrite EA. apply below_ext; [exact P|exact KC|]. exists (s :: q). now rewrite <- app_assoc.
            - rewrite EA. intros E1. apply addr_inj in E1; [|exact KC|exact P]. apply (f_equal (@length bytes)) in E1. rewrite !app_length in E1. cbn [length] in E1. lia. }
          replace (addr_of l ++ 47 :: n) with (addr_of (l ++ [n])) in BN by (unfold addr_of; rewrite join_app by (try discriminate; exact (proj1 P)); rewrite <- app_assoc; reflexivity).
          apply below_ext in BN; [|split; [destruct l; discriminate|destruct P as (_ & P); apply Forall_app; split; [exact P|constructor; [exact NN|constructor]]]|exact KC].
          destruct BN as (q' & E1). rewrite <- !app_assoc in E1. apply app_inv_head in E1. injection E1 as E1 _. exact E1. }
        assert (NE0 : sm <> []).
        { intros ->. destruct X as (q & EQ). destruct q as [|x q]; [rewrite app_nil_r in EQ; subst y; now elim NZ|].
          assert (S : at_path (build (lists items)) (l ++ [x]) <> None).
          { apply build_some; [destruct l; discriminate|]. destruct FK as (a1 & b1 & E1 & _). exists y. split; [rewrite E1; apply in_elt|]. exists q. subst y. now rewrite <- app_assoc. }
          rewrite <- KEY in S. now elim S. }
        destruct sm as [|[n1 v1] [|[n2 v2] sm]]; [now elim NE0|reflexivity|]. exfalso. cbn [map fst] in ND, IN. inversion ND as [|? ? N1 _]. subst.
        apply N1. left. rewrite (IN n1), (IN n2); cbn [In]; auto.
      * destruct C as [(C & _)|(_ & C)]; [subst y; now elim NZ|exact C].
Qed.

Theorem covered : forall i, In i items -> an_address i -> ((exists x, In x r /\ below x i) <-> ~ passed_over items i).
Proof.
  intros i I (s & NS & ->). set (l := comps (str "rsync://" ++ s)).
  assert (L : clean l) by apply comps_clean. assert (EI : str "rsync://" ++ s = addr_of l) by (symmetry; apply addr_comps).
  assert (IL : In l (lists items)) by (apply lists_in; exists s; auto).
  assert (AT : forall p, p <> [] -> extends p l -> exists sm c, at_path (build (lists items)) p = Some (Sub sm c)).
  { intros p N X. assert (S : at_path (build (lists items)) p <> None) by (apply build_some; [exact N|exists l; auto]).
    destruct (at_path (build (lists items)) p) as [[sm c]|]; [eauto|now elim S]. }
  split.
  - intros (x & IX & B) PO. apply returned in IX as (p & P & -> & v & E & G & _).
    assert (GT : gone_through items (addr_of p)) by (apply (PO (join [slash] p)); exact B).
    destruct v as [sm c]. apply (goes_spec p sm c P E) in GT. congruence.
  - intros NP. (* the shortest part of [l] at which the walk stops *)
    assert (D : forall a b, l = a ++ b ->
      (exists p, p <> [] /\ extends p l /\ through (build (lists items)) 0 p) \/
      (forall p, p <> [] -> extends p a -> gone_through items (addr_of p))).
    { intros a. induction a as [|x a IH] using rev_ind; intros b EL; [right; intros p N (q & EQ); destruct p; [now elim N|discriminate]|].
      rewrite <- app_assoc in EL. destruct (IH _ EL) as [H|H]; [now left|].
      assert (XL : extends (a ++ [x]) l) by (exists b; rewrite EL, <- app_assoc; reflexivity).
      assert (NX : a ++ [x] <> []) by (destruct a; discriminate).
      assert (CX : clean (a ++ [x])) by (destruct XL as (q & EQ); rewrite EQ in L; eapply clean_prefix; eauto).
      destruct (AT _ NX XL) as (sm & c & E). destruct (goes_on (Sub sm c) (0 + length (a ++ [x]) - 1)) eqn:G.
      - right. intros p N (q & EQ). destruct q as [|y q _] using rev_ind.
        + rewrite app_nil_r in EQ. subst p. apply (goes_spec _ _ _ CX E). exact G.
        + rewrite app_assoc in EQ. apply app_inj_tail in EQ as (EQ & _). apply H; [exact N|]. now exists q.
      - left. exists (a ++ [x]). split; [exact NX|]. split; [exact XL|]. exists (Sub sm c). split; [exact E|]. split; [exact G|].
        intros u w EU NU NW. destruct w as [|y w _] using rev_ind; [now elim NW|]. rewrite app_assoc in EU. apply app_inj_tail in EU as (EU & _).
        assert (XU : extends u a) by (exists w; exact EU). specialize (H u NU XU).
        assert (XUL : extends u l) by (exists (w ++ [x] ++ b); rewrite EL, EU, <- app_assoc; reflexivity).
        destruct (AT u NU XUL) as (sm' & c' & E'). exists (Sub sm' c'). split; [exact E'|].
        apply (goes_spec u sm' c'); [|exact E'|exact H]. destruct XUL as (q & EQ). rewrite EQ in L. eapply clean_prefix; eauto. }
    destruct (D l [] (eq_sym (app_nil_r l))) as [(p & N & X & T)|H].
    + assert (P : clean p) by (destruct X as (q & EQ); rewrite EQ in L; eapply clean_prefix; eauto).
      exists (addr_of p). split; [apply returned; exists p; auto|]. rewrite EI. apply below_ext; assumption.
    + elim NP. intros t B. rewrite <- (addr_comps t). apply H; [apply comps_clean|]. apply below_ext; [apply comps_clean|exact L|].
      rewrite addr_comps, <- EI. exact B.
Qed.
End Items.
