(** Places with one writer, and with the same octets from all writers. *)
From Coq Require Import Lia String.
From Verif.Model Require Import Base Str Tal Paths Validator Cache Rrdp CacheConc.
From Verif.Spec Require Import CacheConcSpec.
From Verif.Proofs Require Import StrProofs PathProofs CacheProofs RrdpCrash CacheConcProofs.

Lemma nth_ext' : forall (a b : bytes), (forall k, nth_error a k = nth_error b k) -> a = b.
Proof.
  induction a as [|x a IH]; intros [|y b] H; [reflexivity|specialize (H O); discriminate H..|].
  f_equal; [specialize (H O); now injection H|]. apply IH. intros k. exact (H (S k)).
Qed.
Lemma nth_firstn' : forall (l : bytes) n m, nth_error (firstn n l) m = if Nat.ltb m n then nth_error l m else None.
Proof.
  induction l as [|y l IH]; intros [|n] [|m]; try reflexivity.
  - cbn [firstn nth_error]. destruct (Nat.ltb _ _); reflexivity.
  - cbn [firstn nth_error]. rewrite IH. reflexivity.
Qed.
Lemma skipn_part : forall (d : bytes) k part t, skipn k d = part ++ t -> part <> [] -> (k + List.length part <= List.length d)%nat.
Proof.
  intros d k part t E N. assert (X := f_equal (@List.length _) E). rewrite skipn_length, app_length in X. destruct part; [congruence|]. cbn [List.length] in *. lia.
Qed.
Lemma overlay_firstn : forall (d : bytes) k part t, skipn k d = part ++ t -> part <> [] ->
  overlay k part (firstn k d) = firstn (k + List.length part) d.
Proof.
  intros d k part t E N. assert (B := skipn_part _ _ _ _ E N). apply nth_ext'. intros j. rewrite nth_overlay, !nth_firstn', firstn_length.
  destruct (Nat.ltb_spec j k).
  - destruct (Nat.ltb_spec j (Nat.min k (List.length d))); [|lia]. destruct (Nat.ltb_spec j (k + List.length part)); [reflexivity|lia].
  - destruct (Nat.ltb_spec j (k + List.length part)); [|reflexivity]. eapply part_nth; [exact E|lia].
Qed.
Lemma length_overlay : forall k d x, List.length (overlay k d x) = Nat.max (k + List.length d) (List.length x).
Proof.
  intros k d x. unfold overlay. rewrite !app_length, firstn_length, app_length, repeat_length, skipn_length. lia.
Qed.
Lemma skipn_nil_len : forall (d : bytes) k, skipn k d = [] -> (List.length d <= k)%nat.
Proof. intros d k E. assert (X := f_equal (@List.length _) E). rewrite skipn_length in X. cbn in X. lia. Qed.

Lemma lefts_length : forall jobs ps, lefts jobs ps -> List.length jobs = List.length ps.
Proof. intros jobs ps H. induction H; [reflexivity|]. cbn. now f_equal. Qed.

(** *** The same octets from all *)
Section Same.
Variable jobs : list (list fop).
Variable l : loc.
Variable d : bytes.
Hypothesis same : forall d', writes jobs l d' -> d' = d.

Definition waiting (p : proc) : Prop :=
  match p with
  | Running _ r => exists d', In (false, OFile l d') r
  | Stopped VOk => False
  | Stopped _ => True
  end.
Definition inv_same (ps : list proc) (s : fs) : Prop :=
  lefts jobs ps /\
  ((~ being_written ps l /\
    forall i j p, nth_error jobs i = Some j -> nth_error ps i = Some p -> (exists d', In (false, OFile l d') j) -> waiting p) \/
   exists x, s l = Some (File x) /\ (List.length x <= List.length d)%nat /\
     forall k, (k < List.length d)%nat -> nth_error x k = nth_error d k \/ exists k' r, In (Running (Some (l, d, k')) r) ps /\ (k' <= k)%nat).

Lemma In_set_other : forall {A} (ps : list A) i p q q', nth_error ps i = Some p -> In q ps -> q <> p -> In q (set_nth i q' ps).
Proof.
  intros A ps i p q q' E I N. apply In_nth_error in I as (j & J). eapply (nth_error_In _ j). rewrite set_nth_neq; [exact J|]. intros ->. congruence.
Qed.

Lemma same_step : forall ps s i n p, inv_same ps s -> nth_error ps i = Some p ->
  inv_same (set_nth i (fst (proc_step n p s)) ps) (snd (proc_step n p s)).
Proof.
  intros ps s i n p (L & H) E. split; [now apply lefts_step|]. assert (S := step_seen l s n p). assert (IP := nth_error_In _ _ E).
  assert (L' := lefts_step _ _ s _ n _ L E).
  destruct (proc_step n p s) as (p' & s') eqn:PS. cbn [fst snd] in *.
  destruct H as [(NB & W)|(x & X & LX & G)].
  - (* nobody has it open *)
    assert (NC : forall d0 k r, p <> Running (Some (l, d0, k)) r) by (intros d0 k r ->; apply NB; exists d0, k, r; exact IP).
    assert (K : (forall d0 k r, p' <> Running (Some (l, d0, k)) r) ->
      (forall j, nth_error jobs i = Some j -> (exists d', In (false, OFile l d') j) -> waiting p -> waiting p') ->
      ~ being_written (set_nth i p' ps) l /\
      forall i0 j p0, nth_error jobs i0 = Some j -> nth_error (set_nth i p' ps) i0 = Some p0 -> (exists d', In (false, OFile l d') j) -> waiting p0).
    { intros N' Q. split.
      - intros (d0 & k & r & I). apply In_set_nth in I as [I|I]; [exact (N' _ _ _ (eq_sym I))|]. apply NB. now exists d0, k, r.
      - intros i0 j p0 J P0 D. destruct (Nat.eq_dec i i0) as [<-|N].
        + rewrite (set_nth_eq _ _ p' _ E) in P0. injection P0 as <-. exact (Q j J D (W _ _ _ J E D)).
        + rewrite set_nth_neq in P0 by exact N. exact (W _ _ _ J P0 D). }
    destruct p as [[((l' & d0) & k)|] r|v].
    + left. apply K; cbn [proc_step] in PS; (destruct (skipn k d0) as [|y rest]; injection PS as <- _); cbn; try discriminate; auto.
      intros d1 k1 r1 Y. injection Y as -> _ _ _. exact (NC _ _ _ eq_refl).
    + destruct r as [|(g & o) r].
      * left. apply K; cbn in PS; injection PS as <- _; [discriminate|]. intros j _ _ (d' & []).
      * destruct o as [l'|l' d0| |].
        -- left. cbn [proc_step step] in PS. destruct (s l') as [[|y]|]; injection PS as <- _; (apply K; [discriminate|]);
             intros j _ _ (d' & [I|I]); try discriminate I; cbn; eauto.
        -- destruct (leq l l') eqn:LL.
           ++ apply leq_eq in LL. subst l'. assert (d0 = d) by (apply same; exact (left_head _ _ _ _ _ _ _ L E)). subst d0.
              cbn [proc_step] in PS. destruct (s l) as [[|y]|] eqn:F; injection PS as <- <-.
              ** left. apply K; [destruct g; discriminate|]. intros j _ _ (d' & [I|I]); [injection I as -> _; exact Logic.I|].
                 destruct g; cbn; [eauto|exact Logic.I].
              ** right. exists []. rewrite fset_eq. split; [reflexivity|]. split; [cbn; lia|]. intros k _. right. exists O, r.
                 split; [|lia]. eapply (nth_error_In _ i), set_nth_eq, E.
              ** right. exists []. rewrite fset_eq. split; [reflexivity|]. split; [cbn; lia|]. intros k _. right. exists O, r.
                 split; [|lia]. eapply (nth_error_In _ i), set_nth_eq, E.
           ++ left. assert (NL : l' <> l) by (intros ->; rewrite leq_refl in LL; discriminate LL).
              cbn [proc_step] in PS. destruct (s l') as [[|y]|]; injection PS as <- _; (apply K; [first [destruct g; discriminate|intros d1 k1 r1 Y; injection Y as Y _ _ _; congruence]|]);
                intros j _ _ (d' & [I|I]); try (injection I as _ I _; congruence); try (destruct g; cbn; [|exact Logic.I]); cbn; eauto.
        -- left. cbn in PS. injection PS as <- _. apply K; [destruct g; discriminate|]. intros j _ _ (d' & [I|I]); [discriminate I|]. destruct g; cbn; [eauto|exact Logic.I].
        -- left. cbn in PS. injection PS as <- _. apply K; [discriminate|]. intros; exact Logic.I.
    + left. cbn in PS. injection PS as <- _. apply K; [discriminate|]. auto.
  - right. destruct S as [p p' N N' _|v|g r H|g d0 r H|d0 k r part y H NE (t & T)|d0 k r k' H|d0 k r H].
    + exists x. split; [exact X|]. split; [exact LX|]. intros k K. destruct (G k K) as [Q|(k' & r & Q & B)]; [now left|right].
      exists k', r. split; [|exact B]. eapply In_set_other; [exact E|exact Q|]. intros Y. exact (N _ _ _ (eq_sym Y)).
    + exists x. split; [exact X|]. split; [exact LX|]. intros k K. destruct (G k K) as [Q|(k' & r & Q & B)]; [now left|right].
      exists k', r. split; [|exact B]. eapply In_set_other; [exact E|exact Q|]. discriminate.
    + destruct (H _ X).
    + assert (d0 = d) by (apply same; exact (left_head _ _ _ _ _ _ _ L E)). subst d0.
      exists []. split; [reflexivity|]. split; [cbn; lia|]. intros k _. right. exists O, r. split; [|lia]. eapply (nth_error_In _ i), set_nth_eq, E.
    + rewrite X in H. injection H as <-. assert (d0 = d) by (apply same; exact (left_cur _ _ _ _ _ _ L IP)). subst d0.
      assert (B := skipn_part _ _ _ _ T NE). exists (overlay k part x). split; [reflexivity|]. split; [rewrite length_overlay; lia|].
      intros j J. rewrite nth_overlay.
      assert (OTH : forall k' r', In (Running (Some (l, d, k')) r') ps -> (k' <= j)%nat -> (j < k \/ k + List.length part <= j)%nat ->
         exists k2 r2, In (Running (Some (l, d, k2)) r2) (set_nth i (Running (Some (l, d, (k + List.length part)%nat)) r) ps) /\ (k2 <= j)%nat).
      { intros k' r' I' B' [C|C].
        - exists k', r'. split; [|exact B']. eapply In_set_other; [exact E|exact I'|]. intros Y. injection Y as Y _. lia.
        - exists (k + List.length part)%nat, r. split; [|exact C]. eapply (nth_error_In _ i), set_nth_eq, E. }
      destruct (Nat.ltb_spec j k).
      * destruct (Nat.ltb_spec j (List.length x)) as [JX|JX].
        -- destruct (G j J) as [Q|(k' & r' & Q & B')]; [now left|right]. eapply OTH; [exact Q|exact B'|lia].
        -- destruct (G j J) as [Q|(k' & r' & Q & B')].
           ++ rewrite (proj2 (nth_error_None x j) JX) in Q. symmetry in Q. apply nth_error_None in Q. lia.
           ++ right. eapply OTH; [exact Q|exact B'|lia].
      * destruct (Nat.ltb_spec j (k + List.length part)).
        -- left. eapply part_nth; [exact T|lia].
        -- destruct (G j J) as [Q|(k' & r' & Q & B')]; [now left|right]. eapply OTH; [exact Q|exact B'|lia].
    + destruct (H _ X).
    + assert (d0 = d) by (apply same; exact (left_cur _ _ _ _ _ _ L IP)). subst d0. apply skipn_nil_len in H.
      exists x. split; [exact X|]. split; [exact LX|]. intros j J. destruct (G j J) as [Q|(k' & r' & Q & B')]; [now left|right].
      exists k', r'. split; [|exact B']. eapply In_set_other; [exact E|exact Q|]. intros Y. injection Y as Y _. lia.
Qed.

Lemma same_all : forall sched s, (exists j, In j jobs /\ In (false, OFile l d) j) -> all_done (fst (conc_run jobs sched s)) -> snd (conc_run jobs sched s) l = Some (File d).
Proof.
  intros sched s (j & J & D) A.
  destruct (conc_inv inv_same same_step sched (map (Running None) jobs) s) as (L & H).
  { split; [apply lefts_start|]. left. split; [intros (d1 & k1 & r1 & I); destruct (start_running _ _ _ _ _ I)|]. intros i j0 p J0 P0 D0. rewrite nth_error_map, J0 in P0. injection P0 as <-. exact D0. }
  unfold conc_run in *. unfold all_done in A. rewrite Forall_forall in A. destruct H as [(_ & W)|(x & X & LX & G)].
  - apply In_nth_error in J as (i & J).
    destruct (nth_error (fst (conc sched (map (Running None) jobs, s))) i) as [p|] eqn:P.
    + assert (Y := W _ _ _ J P (ex_intro _ d D)). rewrite (A p (nth_error_In _ _ P)) in Y. destruct Y.
    + exfalso. apply nth_error_None in P. apply lefts_length in L. rewrite <- L in P.
      apply nth_error_None in P. congruence.
  - rewrite X. do 2 f_equal. apply nth_ext'. intros k. destruct (Nat.ltb_spec k (List.length d)) as [K|K].
    + destruct (G k K) as [Q|(k' & r & Q & _)]; [exact Q|]. specialize (A _ Q). discriminate A.
    + rewrite (proj2 (nth_error_None d k) K). apply nth_error_None. lia.
Qed.
End Same.

(** *** One writer *)
Section Own.
Variable jobs : list (list fop).
Variable l : loc.
Variable i0 : nat.
Variable j0 : list fop.
Hypothesis nth0 : nth_error jobs i0 = Some j0.
Hypothesis only : forall i j g d, nth_error jobs i = Some j -> In (g, OFile l d) j -> i = i0.

Lemma only_cur : forall ps i d k r, lefts jobs ps -> nth_error ps i = Some (Running (Some (l, d, k)) r) -> i = i0 /\ exists g, In (g, OFile l d) j0.
Proof.
  intros ps i d k r L H. destruct (lefts_nth _ _ _ _ L H) as (j & J & (_ & C)). destruct (C _ _ _ eq_refl) as (g & I). assert (i = i0) by (eapply only; eassumption).
  subst i. split; [reflexivity|]. exists g. congruence.
Qed.
Lemma only_head : forall ps i g d r, lefts jobs ps -> nth_error ps i = Some (Running None ((g, OFile l d) :: r)) -> i = i0.
Proof.
  intros ps i g d r L H. destruct (lefts_nth _ _ _ _ L H) as (j & J & ((a & ->) & _)).
  eapply only; [exact J|]. apply in_or_app. right. now left.
Qed.

(** At any moment. *)
Definition inv_own (s0 : fs) (ps : list proc) (s : fs) : Prop :=
  lefts jobs ps /\
  (forall d k r, In (Running (Some (l, d, k)) r) ps -> s l = Some (File (firstn k d)) /\ (k <= List.length d)%nat) /\
  (forall x, s l = Some (File x) -> ~ being_written ps l -> s0 l = Some (File x) \/ exists g, In (g, OFile l x) j0).
Lemma own_step : forall s0 ps s i n p, inv_own s0 ps s -> nth_error ps i = Some p ->
  inv_own s0 (set_nth i (fst (proc_step n p s)) ps) (snd (proc_step n p s)).
Proof.
  intros s0 ps s i n p (L & C & W) E. split; [now apply lefts_step|]. assert (S := step_seen l s n p). assert (IP := nth_error_In _ _ E).
  assert (OT : forall d k r q, i = i0 -> In (Running (Some (l, d, k)) r) (set_nth i q ps) -> Running (Some (l, d, k)) r = q).
  { intros d k r q -> I. apply In_nth_error in I as (m & I). destruct (Nat.eq_dec i0 m) as [<-|N].
    - rewrite (set_nth_eq _ _ _ _ E) in I. now injection I.
    - rewrite set_nth_neq in I by exact N. destruct (only_cur _ _ _ _ _ L I) as (-> & _). congruence. }
  destruct (proc_step n p s) as (p' & s'). cbn [fst snd] in *.
  destruct S as [p p' N N' _|v|g r H|g d r H|d k r part y H NE (t & T)|d k r k' H|d k r H].
  - split.
    + intros d k r I. apply In_set_nth in I as [I|I]; [destruct (N' _ _ _ (eq_sym I))|eapply C, I].
    + intros x X B. apply W; [exact X|]. intros (d & k & r & I). apply B. exists d, k, r. eapply In_set_other; [exact E|exact I|]. intros Y. exact (N _ _ _ (eq_sym Y)).
  - split.
    + intros d k r I. apply In_set_nth in I as [I|I]; [discriminate I|eapply C, I].
    + intros x X B. apply W; [exact X|]. intros (d & k & r & I). apply B. exists d, k, r. eapply In_set_other; [exact E|exact I|]. discriminate.
  - split.
    + intros d k r0 I. apply In_set_nth in I as [I|I]; [discriminate I|]. destruct (C _ _ _ I) as (X & _). destruct (H _ X).
    + discriminate.
  - assert (i = i0) by exact (only_head _ _ _ _ _ L E). subst i. split.
    + intros d1 k1 r1 I. apply (OT _ _ _ _ eq_refl) in I. injection I as -> -> _. split; [reflexivity|lia].
    + intros x _ B. destruct B. exists d, O, r. eapply (nth_error_In _ i0), set_nth_eq, E.
  - destruct (only_cur _ _ _ _ _ L E) as (-> & I0). destruct (C _ _ _ IP) as (X & LK). rewrite H in X. injection X as ->.
    rewrite (overlay_firstn _ _ _ _ T NE). split.
    + intros d1 k1 r1 I. apply (OT _ _ _ _ eq_refl) in I. injection I as -> -> _. split; [reflexivity|]. eapply skipn_part; eassumption.
    + intros x _ B. destruct B. do 3 eexists. eapply (nth_error_In _ i0), set_nth_eq, E.
  - destruct (C _ _ _ IP) as (X & _). destruct (H _ X).
  - destruct (only_cur _ _ _ _ _ L E) as (-> & I0). destruct (C _ _ _ IP) as (X & LK). split.
    + intros d1 k1 r1 I. apply (OT _ _ _ _ eq_refl) in I. discriminate I.
    + intros x X' _. right. rewrite X in X'. injection X' as <-. apply skipn_nil_len in H. now rewrite firstn_all2.
Qed.
Lemma own_moments : forall sched s x, snd (conc_run jobs sched s) l = Some (File x) ->
  s l = Some (File x) \/ exists g d, In (g, OFile l d) j0 /\ (x = d \/ (being_written (fst (conc_run jobs sched s)) l /\ exists k, x = firstn k d)).
Proof.
  intros sched s x X. destruct (conc_inv (inv_own s) (own_step s) sched (map (Running None) jobs) s) as (L & C & W).
  { split; [apply lefts_start|]. split; [intros d k r I; destruct (start_running _ _ _ _ _ I)|auto]. }
  fold (conc_run jobs sched s) in L, C, W.
  assert (D : being_written (fst (conc_run jobs sched s)) l \/ ~ being_written (fst (conc_run jobs sched s)) l).
  { generalize (fst (conc_run jobs sched s)). induction l0 as [|p ps IH]; [right; intros (? & ? & ? & [])|].
    destruct IH as [(d & k & r & I)|IH]; [left; exists d, k, r; now right|].
    destruct p as [[((l' & d) & k)|] r|v].
    - destruct (leq l' l) eqn:Q; [apply leq_eq in Q; subst l'; left; exists d, k, r; now left|].
      right. intros (d1 & k1 & r1 & [I|I]); [injection I as I _ _ _; subst; rewrite leq_refl in Q; discriminate Q|]. apply IH. now exists d1, k1, r1.
    - right. intros (d1 & k1 & r1 & [I|I]); [discriminate I|]. apply IH. now exists d1, k1, r1.
    - right. intros (d1 & k1 & r1 & [I|I]); [discriminate I|]. apply IH. now exists d1, k1, r1. }
  destruct D as [D|D].
  - right. assert (D0 := D). destruct D0 as (d & k & r & I). destruct (C _ _ _ I) as (Y & _). rewrite X in Y. injection Y as ->.
    apply In_nth_error in I as (m & I). destruct (only_cur _ _ _ _ _ L I) as (_ & g & IJ). exists g, d. split; [exact IJ|]. right. split; [exact D|]. now exists k.
  - destruct (W x X D) as [Q|(g & Q)]; [now left|right]. exists g, x. auto.
Qed.

(** The end. *)
Variable d0 : bytes.
Hypothesis last0 : last_write l j0 d0.
Definition inv_last (ps : list proc) (s : fs) : Prop :=
  lefts jobs ps /\
  (forall d k r, In (Running (Some (l, d, k)) r) ps -> s l = Some (File (firstn k d))) /\
  exists p, nth_error ps i0 = Some p /\
  match p with
  | Stopped VOk => s l = Some (File d0)
  | Stopped _ => True
  | Running c r => last_write l r d0 \/
      ((forall g d, ~ In (g, OFile l d) r) /\
       match c with
       | Some (l', d, k) => if leq l l' then d = d0 else s l = Some (File d0)
       | None => s l = Some (File d0)
       end)
  end.
Lemma last_tail : forall o r, last_write l (o :: r) d0 -> (forall d, o <> (false, OFile l d)) -> last_write l r d0.
Proof. intros o r ([|x a] & b & E & N) H; cbn in E; injection E as -> E; [destruct (H _ eq_refl)|]. exists a, b. auto. Qed.
Lemma last_open : forall g d r, last_write l ((g, OFile l d) :: r) d0 -> last_write l r d0 \/ (g = false /\ d = d0 /\ forall g' d', ~ In (g', OFile l d') r).
Proof. intros g d r ([|x a] & b & E & N); cbn in E. - injection E as -> -> ->. right. auto. - injection E as _ E. left. exists a, b. auto. Qed.

Lemma last_step : forall ps s i n p, inv_last ps s -> nth_error ps i = Some p ->
  inv_last (set_nth i (fst (proc_step n p s)) ps) (snd (proc_step n p s)).
Proof.
  intros ps s i n p (L & C & q & Q & H) E. assert (L' := lefts_step _ _ s _ n _ L E). split; [exact L'|].
  assert (S := step_seen l s n p). assert (IP := nth_error_In _ _ E).
  assert (C' : forall d k r, In (Running (Some (l, d, k)) r) (set_nth i (fst (proc_step n p s)) ps) -> snd (proc_step n p s) l = Some (File (firstn k d))).
  { intros d k r I. apply In_nth_error in I as (m & I). destruct (only_cur _ _ _ _ _ L' I) as (-> & _).
    destruct (Nat.eq_dec i i0) as [->|N].
    - rewrite (set_nth_eq _ _ _ _ E) in I. injection I as I. rewrite I in S. destruct (proc_step n p s) as (p' & s'). cbn [fst snd] in *.
      inversion S as [a b A B D|v|g1 r1 A|g1 d1 r1 A|d1 k1 r1 part y A NE (t & T)|d1 k1 r1 k' A|d1 k1 r1 A]; subst.
      + destruct (B _ _ _ eq_refl).
      + reflexivity.
      + rewrite (C _ _ _ IP) in A. injection A as <-. rewrite (overlay_firstn _ _ _ _ T NE). reflexivity.
      + destruct (A _ (C _ _ _ IP)).
    - rewrite set_nth_neq in I by exact N. assert (X := C _ _ _ (nth_error_In _ _ I)).
      destruct (proc_step n p s) as (p' & s'). cbn [fst snd] in *.
      destruct S as [a b A B D|v|g1 r1 A|g1 d1 r1 A|d1 k1 r1 part y A NE (t & T)|d1 k1 r1 k' A|d1 k1 r1 A]; try exact X.
      + destruct (A _ X).
      + assert (i = i0) by exact (only_head _ _ _ _ _ L E). congruence.
      + destruct (only_cur _ _ _ _ _ L E) as (-> & _). congruence. }
  split; [exact C'|]. destruct (Nat.eq_dec i i0) as [->|N].
  - rewrite E in Q. injection Q as <-. exists (fst (proc_step n p s)). split; [eapply set_nth_eq, E|].
    destruct p as [[((l' & d) & k)|] r|v]; cbn [proc_step].
    + destruct (skipn k d) as [|y rest] eqn:K; cbn [fst snd].
      * destruct H as [H|(A & H)]; [now left|right]. split; [exact A|]. destruct (leq l l') eqn:Q; [|exact H]. subst d. apply leq_eq in Q. subst l'.
        rewrite (C _ _ _ IP). apply skipn_nil_len in K. now rewrite firstn_all2.
      * destruct H as [H|(A & H)]; [now left|right]. split; [exact A|]. destruct (leq l l') eqn:Q; [exact H|].
        assert (NL : l <> l') by (intros ->; rewrite leq_refl in Q; discriminate Q).
        destruct (s l') as [[|x]|]; try exact H. now rewrite fset_neq.
    + destruct r as [|(g & o) r]; cbn [fst snd].
      * destruct H as [(a & b & X & _)|(_ & H)]; [destruct a; discriminate X|exact H].
      * assert (H' : (forall d, o <> OFile l d) -> last_write l r d0 \/ (forall g d, ~ In (g, OFile l d) r) /\ s l = Some (File d0)).
        { intros NO. destruct H as [H|(A & H)]; [left; eapply last_tail; [exact H|intros d X; injection X as _ X; exact (NO _ X)]|right].
          split; [|exact H]. intros g' d I. apply (A g' d). now right. }
        destruct o as [l'|l' d| |].
        -- specialize (H' ltac:(discriminate)). cbn [step]. destruct (s l') as [[|x]|] eqn:F; cbn [fst snd]; [|exact Logic.I|].
           all: destruct H' as [H'|(A & H')]; [now left|right]; split; [exact A|].
           all: assert (NL : l <> l') by (intros ->; congruence); now rewrite fset_neq.
        -- destruct (leq l l') eqn:Q.
           ++ apply leq_eq in Q. subst l'. destruct H as [H|(A & _)]; [|destruct (A g d); now left].
              destruct (last_open _ _ _ H) as [H1|(-> & -> & H1)].
              ** destruct (s l) as [[|x]|]; cbn [fst snd]; [destruct g; [now left|exact Logic.I]|now left..].
              ** destruct (s l) as [[|x]|]; cbn [fst snd]; [exact Logic.I|..]; right; rewrite leq_refl; auto.
           ++ assert (NL : l <> l') by (intros ->; rewrite leq_refl in Q; discriminate Q).
              assert (NO : forall d1, OFile l' d <> OFile l d1) by (intros d1 Y; injection Y as Y _; congruence). specialize (H' NO).
              destruct (s l') as [[|x]|]; cbn [fst snd]; [destruct g; [|exact Logic.I]|..]; (destruct H' as [H'|(A & H')]; [now left|right]); try rewrite Q, fset_neq by exact NL; auto.
        -- specialize (H' ltac:(discriminate)). destruct g; [|exact Logic.I]. cbn [fst snd step]. exact H'.
        -- exact Logic.I.
    + exact H.
  - exists q. split; [rewrite set_nth_neq; auto|].
    assert (F : forall x, s l = Some (File x) -> snd (proc_step n p s) l = Some (File x)).
    { intros x X. destruct (proc_step n p s) as (p' & s'). cbn [fst snd] in *.
      destruct S as [a b A B D|v|g1 r1 A|g1 d1 r1 A|d1 k1 r1 part y A NE (t & T)|d1 k1 r1 k' A|d1 k1 r1 A]; try exact X.
      - destruct (A _ X).
      - assert (i = i0) by exact (only_head _ _ _ _ _ L E). congruence.
      - destruct (only_cur _ _ _ _ _ L E) as (-> & _). congruence. }
    destruct q as [[((l' & d) & k)|] r|[]]; auto.
    + destruct H as [H|(A & H)]; [now left|right]. split; [exact A|]. destruct (leq l l'); auto.
    + destruct H as [H|(A & H)]; [now left|right]. auto.
Qed.
Lemma own_last : forall sched s, all_done (fst (conc_run jobs sched s)) -> snd (conc_run jobs sched s) l = Some (File d0).
Proof.
  intros sched s A. destruct (conc_inv inv_last last_step sched (map (Running None) jobs) s) as (L & C & p & P & H).
  { split; [apply lefts_start|]. split; [intros d k r I; destruct (start_running _ _ _ _ _ I)|].
    exists (Running None j0). split; [rewrite nth_error_map, nth0; reflexivity|now left]. }
  unfold all_done in A. rewrite Forall_forall in A. rewrite (A p (nth_error_In _ _ P)) in H. exact H.
Qed.
End Own.
